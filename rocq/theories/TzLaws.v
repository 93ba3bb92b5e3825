(** Laws of UTC offsets and of the timezone database (C62, C63). *)
From Verif Require Import Base Types BaseProofs StrProofs CommentModel TzModel MergeClaims ImportClaims ImportProofs.
From Coq Require Import Lia.
Local Open Scope Z_scope.

Lemma digits_two H : digits H → length H = 2%nat →
  ∃ a b, H = [a; b] ∧ rx_09 a = true ∧ rx_09 b = true ∧ two_digits a b = Z.of_N (number H).
Proof.
  intros [_ Hd] Hl. destruct H as [|a [|b [|]]]; try done. exists a, b.
  pose proof (Hd a ltac:(by left)) as Ha. pose proof (Hd b ltac:(by right; left)) as Hb.
  unfold rx_09. split_and!; [done|..].
  - apply andb_true_iff. split; apply N.leb_le; lia.
  - apply andb_true_iff. split; apply N.leb_le; lia.
  - unfold two_digits, number. cbn [foldl]. lia.
Qed.
Lemma two_digits_ok a b : rx_09 a = true → rx_09 b = true →
  digits [a; b] ∧ two_digits a b = Z.of_N (number [a; b]).
Proof.
  unfold rx_09. intros [Ha1%N.leb_le Ha2%N.leb_le]%andb_true_iff [Hb1%N.leb_le Hb2%N.leb_le]%andb_true_iff.
  split.
  - split; [done|]. intros c [->|[->|E%elem_of_nil]%elem_of_cons]%elem_of_cons; done.
  - unfold two_digits, number. cbn [foldl]. lia.
Qed.
Lemma rx_spec s positive h m : utc_offset_rx s = Some (positive, h, m) ↔
  ∃ H M : str, digits H ∧ length H = 2%nat ∧ digits M ∧ length M = 2%nat ∧
    h = Z.of_N (number H) ∧ m = Z.of_N (number M) ∧
    (s = s2l "UTC" ++ s2l (if positive then "+" else "-") ++ H ++ s2l ":" ++ M ∨
     s = s2l "UTC" ++ s2l (if positive then "+" else "-") ++ H ∧ M = s2l "00").
Proof.
  split.
  - destruct s as [|u [|t [|c [|sign [|h1 [|h2 rest]]]]]]; try done. cbn [utc_offset_rx].
    destruct (_ && _) eqn:E; [|done].
    apply andb_true_iff in E as [E H2]. apply andb_true_iff in E as [E H1].
    apply andb_true_iff in E as [E Hs]. apply andb_true_iff in E as [E ->%N.eqb_eq].
    apply andb_true_iff in E as [->%N.eqb_eq ->%N.eqb_eq].
    destruct (two_digits_ok h1 h2 H1 H2) as [Hd Hn].
    assert (s2l (if (sign =? 43)%N then "+" else "-") = [sign]) as Esign.
    { apply orb_true_iff in Hs as [->%N.eqb_eq| ->%N.eqb_eq]; done. }
    destruct rest as [|col [|m1 [|m2 [|]]]]; try done.
    + intros [= <- <- <-]. exists [h1; h2], (s2l "00").
      assert (digits (s2l "00")) as H0 by (by apply (two_digits_ok 48%N 48%N)). split_and!; try done.
      right. split; [|done]. by rewrite Esign.
    + destruct (_ && _) eqn:E; [|done]. apply andb_true_iff in E as [E M2]. apply andb_true_iff in E as [->%N.eqb_eq M1].
      destruct (two_digits_ok m1 m2 M1 M2) as [Md Mn].
      intros [= <- <- <-]. exists [h1; h2], [m1; m2]. split_and!; try done. left. by rewrite Esign.
  - intros (H & M & HH & LH & HM & LM & -> & -> & Hs).
    destruct (digits_two H HH LH) as (h1 & h2 & -> & H1 & H2 & EH). destruct (digits_two M HM LM) as (m1 & m2 & -> & M1 & M2 & EM).
    assert (∀ rest, utc_offset_rx (s2l "UTC" ++ s2l (if positive then "+" else "-") ++ [h1; h2] ++ rest) =
      match rest with
      | [] => Some (positive, two_digits h1 h2, 0)
      | [col; m1; m2] => if ((col =? 58)%N && rx_09 m1 && rx_09 m2) then Some (positive, two_digits h1 h2, two_digits m1 m2) else None
      | _ => None end) as Hrx.
    { intros rest. destruct positive; cbn -[rx_09 two_digits]; rewrite H1, H2; done. }
    destruct Hs as [->|[-> Em]].
    + rewrite Hrx. cbn -[rx_09 two_digits number]. rewrite M1, M2. cbn -[two_digits number]. by rewrite EH, EM.
    + rewrite Em. specialize (Hrx []). rewrite (right_id_L [] (++)) in Hrx. rewrite Hrx. by rewrite EH.
Qed.
Lemma offset_spec s secs : parse_utc_offset s = Ok secs ↔ utc_offset s secs.
Proof.
  unfold parse_utc_offset. split.
  - destruct (utc_offset_rx s) as [[[positive h] m]|] eqn:E; [|done].
    apply rx_spec in E as (H & M & HH & LH & HM & LM & -> & -> & Hs).
    destruct (Z.ltb_spec 59 (Z.of_N (number M))) as [|Hm]; [done|]. cbv zeta. unfold east_opt.
    destruct (_ && _) eqn:E; [|done]. apply andb_true_iff in E as [E1%Z.ltb_lt E2%Z.ltb_lt]. intros [= <-].
    exists positive, H, M. split_and!; try done; [lia|..]; destruct positive; lia.
  - intros (positive & H & M & HH & LH & HM & LM & Hs & Hm & Ha & ->).
    rewrite (proj2 (rx_spec s positive _ _)) by (exists H, M; done).
    destruct (Z.ltb_spec 59 (Z.of_N (number M))) as [|_]; [lia|]. cbv zeta. unfold east_opt.
    destruct (_ && _) eqn:E; [f_equal; destruct positive; lia|]. apply andb_false_iff in E as [E%Z.ltb_ge|E%Z.ltb_ge]; destruct positive; lia.
Qed.
Lemma offset_no_panic s : parse_utc_offset s ≠ Panic.
Proof.
  unfold parse_utc_offset. destruct (utc_offset_rx s) as [[[positive h] m]|]; [|done]. destruct (59 <? m); [done|].
  cbv zeta. by destruct (east_opt _).
Qed.
Lemma utc_offset_fun s x y : utc_offset s x → utc_offset s y → x = y.
Proof. rewrite <- !offset_spec. congruence. Qed.

Lemma insert_rows db rows db' : tz_insert_rows db rows = Ok db' ↔
  NoDup rows.*1 ∧ (∀ a s, (a, s) ∈ rows → db !! a = None ∧ ∃ o, utc_offset s o) ∧
  ∀ a o, db' !! a = Some o ↔ db !! a = Some o ∨ ∃ s, (a, s) ∈ rows ∧ utc_offset s o.
Proof.
  revert db. induction rows as [|[a s] rows IH]; intros db.
  - cbn [tz_insert_rows]. split.
    + intros [= <-]. split_and!; [constructor|by intros a s E%elem_of_nil|]. intros a o. split; [auto|].
      intros [?|(s & E%elem_of_nil & _)]; done.
    + intros (_ & _ & H). f_equal. apply map_eq. intros a. apply option_eq. intros o. rewrite H.
      split; [auto|]. intros [?|(s & E%elem_of_nil & _)]; done.
  - cbn [tz_insert_rows]. rewrite fmap_cons. split.
    + intros (o & Ho%offset_spec & H)%rbind_ok. destruct (db !! a) as [|] eqn:Ea; [done|].
      apply IH in H as (Hnd & Hall & Hlk). unfold tz_db, fixed_offset in *.
      assert (a ∉ rows.*1) as Hna.
      { intros ([a' s'] & E & Hin)%elem_of_list_fmap. cbn in E. subst a'. apply Hall in Hin as [E _]. by rewrite lookup_insert in E. }
      split_and!.
      * by constructor.
      * intros a' s' [[= -> ->]|Hin]%elem_of_cons; [eauto|]. split; [|by eapply Hall].
        apply Hall in Hin as [E _]. by apply lookup_insert_None in E as [? _].
      * intros a' o'. rewrite Hlk. destruct (decide (a = a')) as [<-|Hne].
        { rewrite lookup_insert, Ea. split.
          - intros [[= <-]|(s' & Hin & _)].
            + right. exists s. split; [left|done].
            + destruct Hna. apply elem_of_list_fmap. by exists (a, s').
          - intros [?|(s' & [[= ->]|Hin]%elem_of_cons & Hs')]; [done|..].
            + left. f_equal. by eapply utc_offset_fun.
            + destruct Hna. apply elem_of_list_fmap. by exists (a, s'). }
        { rewrite lookup_insert_ne by done. split.
          - intros [?|(s' & Hin & Hs')]; [auto|]. right. exists s'. split; [by right|done].
          - intros [?|(s' & [[= <- _]|Hin]%elem_of_cons & Hs')]; [auto|done|]. right. by exists s'. }
    + intros (Hnd & Hall & Hlk). apply NoDup_cons in Hnd as [Hna Hnd].
      destruct (Hall a s) as (Ea & o & Ho); [left|]. rewrite (proj2 (offset_spec s o) Ho). cbn [rbind]. rewrite Ea.
      apply IH. unfold tz_db, fixed_offset in *. split_and!; [done|..].
      * intros a' s' Hin. destruct (Hall a' s') as (E & Ho'); [by right|]. split; [|done].
        apply lookup_insert_None. split; [done|]. intros <-. destruct Hna. apply elem_of_list_fmap. by exists (a, s').
      * intros a' o'. rewrite Hlk. destruct (decide (a = a')) as [<-|Hne].
        { rewrite lookup_insert, Ea. split.
          - intros [?|(s' & [[= ->]|Hin]%elem_of_cons & Hs')]; [done|..].
            + left. f_equal. by eapply utc_offset_fun.
            + destruct Hna. apply elem_of_list_fmap. by exists (a, s').
          - intros [[= <-]|(s' & Hin & _)].
            + right. exists s. split; [left|done].
            + destruct Hna. apply elem_of_list_fmap. by exists (a, s'). }
        { rewrite lookup_insert_ne by done. split.
          - intros [?|(s' & [[= <- _]|Hin]%elem_of_cons & Hs')]; [auto|done|]. right. by exists s'.
          - intros [?|(s' & Hin & Hs')]; [auto|]. right. exists s'. split; [by right|done]. }
Qed.
Lemma tz_db_spec rows db : tz_from_rows rows = Ok db ↔
  NoDup rows.*1 ∧ (∀ a s, (a, s) ∈ rows → ∃ o, utc_offset s o) ∧
  ∀ a o, abbr_to_tz db a = Some o ↔ ∃ s, (a, s) ∈ rows ∧ utc_offset s o.
Proof.
  unfold tz_from_rows, abbr_to_tz. rewrite insert_rows. unfold tz_db, fixed_offset in *. split.
  - intros (H1 & H2 & H3). split_and!; [done|intros a s Hin; by eapply H2|]. intros a o. rewrite H3, lookup_empty. naive_solver.
  - intros (H1 & H2 & H3). split_and!; [done|..].
    + intros a s Hin. split; [by rewrite lookup_empty|by eapply H2].
    + intros a o. rewrite H3, lookup_empty. naive_solver.
Qed.
Lemma tz_db_exists rows : NoDup rows.*1 → (∀ a s, (a, s) ∈ rows → ∃ o, utc_offset s o) →
  ∃ db, tz_from_rows rows = Ok db.
Proof.
  unfold tz_from_rows. assert (∀ db, NoDup rows.*1 → (∀ a s, (a, s) ∈ rows → db !! a = None ∧ ∃ o, utc_offset s o) →
    ∃ db', tz_insert_rows db rows = Ok db') as H.
  { induction rows as [|[a s] rows IH]; intros db Hnd Hall; [by eexists|]. rewrite fmap_cons in Hnd. apply NoDup_cons in Hnd as [Hna Hnd].
    cbn [tz_insert_rows]. destruct (Hall a s) as (Ea & o & Ho); [left|]. rewrite (proj2 (offset_spec s o) Ho). cbn [rbind]. rewrite Ea.
    apply IH; [done|]. unfold tz_db, fixed_offset in *. intros a' s' Hin. destruct (Hall a' s') as (E & Ho'); [by right|]. split; [|done].
    apply lookup_insert_None. split; [done|]. intros <-. destruct Hna. apply elem_of_list_fmap. by exists (a, s'). }
  intros Hnd Hall. apply H; [done|]. intros a s Hin. split; [apply lookup_empty|by eapply Hall].
Qed.
