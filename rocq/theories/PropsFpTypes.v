(** C128: fingerprints of values of any types.  Vocabulary ([val_ok], [raw_only_last],
    [chain_message]) in FpTypesClaims.v; [fp_type], [fp_val] and [fp_vals] (values of
    types) in FpTypesModel.v. *)
From Verif Require Import Base Types Sha1 FingerprintModel NwCsvModel FingerprintClaims LibClaims FpTypesModel FpTypesClaims FpTypes.
Local Open Scope N_scope.

(** Two fingerprints made from values of the same types are equal exactly if everything
    that went into them is equal, or the hash function collides. *)
Theorem C128_values ts alg v ns alg' v' ns' b b' xs ys : raw_only_last ts → vals_ok ts xs → vals_ok ts ys →
  builder_new alg v ns = Ok b → builder_new alg' v' ns' = Ok b' →
  tag (builder_build (with_all ts xs b)) = tag (builder_build (with_all ts ys b')) ↔
  alg = alg' ∧ v = v' ∧ ns = ns' ∧ (xs = ys ∨ sha1_collision (chain_message ts xs) (chain_message ts ys)).
Proof. exact (chain_tags ts alg v ns alg' v' ns' b b' xs ys). Qed.
Print Assumptions C128_values.
(** Without the hash function: what is hashed determines the values. *)
Theorem C128_messages ts xs ys : raw_only_last ts → vals_ok ts xs → vals_ok ts ys →
  chain_message ts xs = chain_message ts ys → xs = ys.
Proof. exact (λ Hr, chain_inj ts Hr xs ys). Qed.
Print Assumptions C128_messages.
(** Numbers are written with the most significant byte first, negative ones in two's
    complement. *)
Theorem C128_numbers t k x : width t = Some k → val_ok t x →
  let m := fp_with t x [] in
  N.of_nat (length m) = k ∧ Z.of_N (be_value m) = (as_number t x mod 2 ^ (8 * Z.of_N k))%Z ∧ ∀ b, b ∈ m → b < 256.
Proof. exact (number_bytes t k x). Qed.
Print Assumptions C128_numbers.
(** The fingerprints of Nationwide's records with five columns are an instance. *)
Example C128_used r ns i : five_fingerprint_v1 r ns i =
  let! b := builder_new (s2l "nwcsv5") 1 ns in
  let c side := builder_build (with_all [TDate; TI32; TStr; TStr; TOption TAmount; TOption TAmount; TStr]
    (r5_date r, (i, (r5_transactions r, (r5_location r, (r5_paid_out r, (r5_paid_in r, (side, tt))))))) b) in
  Ok (c (s2l "self"), c (s2l "peer")).
Proof. exact (five_is_chain r ns i). Qed.
Definition ft_ts : list fp_type := [TI16; TOption (TOption TStr); TI8; TBytes].
Definition ft_xs : fp_vals ft_ts := ((-2)%Z, (Some (Some (s2l "ab")), ((-1)%Z, ([1; 2], tt)))).
Definition ft_ys : fp_vals ft_ts := ((-2)%Z, (Some None, ((-1)%Z, ([1; 2], tt)))).
Example C128_ex : raw_only_last ft_ts ∧ vals_ok ft_ts ft_xs ∧ vals_ok ft_ts ft_ys ∧
  chain_message ft_ts ft_xs = [255; 254; 1; 1; 0; 0; 0; 0; 0; 0; 0; 2; 97; 98; 255; 1; 2] ∧
  chain_message ft_ts ft_ys = [255; 254; 1; 0; 255; 1; 2].
Proof.
  refine (conj _ (conj _ (conj _ (conj eq_refl eq_refl)))).
  - apply (only_last [TI16; TOption (TOption TStr); TI8] TBytes). repeat (constructor; [by intros []|]). constructor.
  - refine (conj _ (conj _ (conj _ (conj _ I)))); cbn [val_ok fst snd ft_xs]; [done| |done|].
    + split; [|done]. intros c Hc. repeat (apply elem_of_cons in Hc as [->|Hc]; [done|]). by apply elem_of_nil in Hc.
    + intros c Hc. repeat (apply elem_of_cons in Hc as [->|Hc]; [done|]). by apply elem_of_nil in Hc.
  - refine (conj _ (conj I (conj _ (conj _ I)))); cbn [val_ok fst snd ft_ys]; [done|done|].
    intros c Hc. repeat (apply elem_of_cons in Hc as [->|Hc]; [done|]). by apply elem_of_nil in Hc.
Qed.
(** Bytes are written without their number, so two pieces of them can be divided
    otherwise (the comment at src/fingerprint.rs:49 says that values are prefixed with
    their lengths). *)
Theorem C128_raw_needed : ∃ ts xs ys, vals_ok ts xs ∧ vals_ok ts ys ∧ xs ≠ ys ∧
  ∀ b, with_all ts xs b = with_all ts ys b.
Proof. exact raw_collide. Qed.
Print Assumptions C128_raw_needed.
(** Numbers do not show their width, so the types have to be the same (they are fixed by
    the name of the algorithm and its version). *)
Theorem C128_types_needed : ∃ ts ts' xs ys, raw_only_last ts ∧ raw_only_last ts' ∧ vals_ok ts xs ∧ vals_ok ts' ys ∧ ts ≠ ts' ∧
  ∀ b, with_all ts xs b = with_all ts' ys b.
Proof. exact types_collide. Qed.
Print Assumptions C128_types_needed.
