(** Model of src/tzabbr.rs. *)
From stdpp Require Import gmap list.
From Verif Require Import Base Types.
Open Scope N_scope.

(** [chrono::FixedOffset]: seconds east of UTC. *)
Definition fixed_offset := Z.
(** [FixedOffset::east_opt] (external). *)
Definition east_opt (secs : Z) : option fixed_offset :=
  if ((-86400 <? secs) && (secs <? 86400))%Z then Some secs else None.

(** The class [0-9]. *)
Definition rx_09 (c : char) : bool := (48 <=? c) && (c <=? 57).
(** The number written by two ASCII digits. *)
Definition two_digits (a b : char) : Z := (10 * Z.of_N (a - 48) + Z.of_N (b - 48))%Z.

(** The two regular expressions of src/tzabbr.rs:57-59: sign, hours, minutes. *)
Definition utc_offset_rx (s : str) : option (bool * Z * Z) :=
  match s with
  | u :: t :: c :: sign :: h1 :: h2 :: rest =>
      if (u =? 85) && (t =? 84) && (c =? 67) && ((sign =? 43) || (sign =? 45))
         && rx_09 h1 && rx_09 h2
      then match rest with
           | [] => Some (sign =? 43, two_digits h1 h2, 0%Z)
           | [col; m1; m2] =>
               if (col =? 58) && rx_09 m1 && rx_09 m2
               then Some (sign =? 43, two_digits h1 h2, two_digits m1 m2)
               else None
           | _ => None
           end
      else None
  | _ => None
  end.

(** src/tzabbr.rs:55-79. *)
Definition parse_utc_offset (s : str) : result fixed_offset :=
  match utc_offset_rx s with
  | None => Err EBadOffset
  | Some (positive, hours, minutes) =>
      if (59 <? minutes)%Z then Err EBadOffset
      else
        let sign := (if positive then 1 else -1)%Z in
        match east_opt (sign * (hours * 3600 + minutes * 60)) with
        | Some o => Ok o
        | None => Err EBadOffset
        end
  end.

(** src/tzabbr.rs:18-20. *)
Definition tz_db := gmap str fixed_offset.
(** src/tzabbr.rs:23-46.  The input is the list of rows (abbreviation, offset)
    that the csv crate deserialises. *)
Fixpoint tz_insert_rows (db : tz_db) (rows : list (str * str)) : result tz_db :=
  match rows with
  | [] => Ok db
  | (abbr, off) :: rows =>
      let! off := parse_utc_offset off in
      match db !! abbr with
      | Some _ => Err EDupAbbr
      | None => tz_insert_rows (<[abbr := off]> db) rows
      end
  end.
Definition tz_from_rows (rows : list (str * str)) : result tz_db := tz_insert_rows ∅ rows.
(** src/tzabbr.rs:50-52. *)
Definition abbr_to_tz (db : tz_db) (abbr : str) : option fixed_offset := db !! abbr.
