(** Proofs for C128. *)
From Verif Require Import Base Types Sha1 FingerprintModel NwCsvModel CommentClaims FingerprintClaims FingerprintProofs LibClaims Lib FingerprintLaws FpTypesModel FpTypesClaims.
Local Open Scope N_scope.

Lemma fp_with_appends t : appends (fp_with t).
Proof.
  induction t; try (intros x acc; done).
  - apply with_amount_appends.
  - by apply with_option_appends.
  - apply with_str_appends.
  - apply with_date_appends.
  - apply with_time_appends.
Qed.
Lemma fp_with_pf t : ¬ raw t → prefix_free (val_ok t) (fp_with t).
Proof.
  induction t; intros Hr; cbn [raw] in Hr; try done.
  - intros x y r r' Hx Hy E. cbn in *. injection E as E1 E2. split; [lia|done].
  - intros x y r r' Hx Hy E. cbn [val_ok fp_with] in *. apply (be_prefix 2) in E as [E ->]; [split; [lia|done]| |]; simpl; lia.
  - apply with_i32_pf.
  - intros x y r r' Hx Hy E. cbn [val_ok fp_with] in *. unfold i64_ok in *. apply (be_prefix 8) in E as [E ->]; [split; [lia|done]| |]; simpl; lia.
  - apply with_u8_pf.
  - intros x y r r' Hx Hy E. by apply (be_prefix 2) in E.
  - apply with_u32_pf.
  - apply with_u64_pf.
  - apply with_u64_pf.
  - apply with_amount_pf.
  - cbn [val_ok fp_with]. intros x y r r' Hx Hy.
    apply (with_option_pf (val_ok t)); [apply fp_with_appends|by apply IHt| |]; intros a ->; done.
  - apply with_str_pf.
  - apply with_date_pf.
  - apply with_time_pf.
Qed.
Lemma fp_with_inj t : ∀ x y, val_ok t x → val_ok t y → fp_with t x [] = fp_with t y [] → x = y.
Proof.
  assert (∀ t x y, ¬ raw t → val_ok t x → val_ok t y → fp_with t x [] = fp_with t y [] → x = y) as H.
  { clear. intros t x y Hr Hx Hy E. by destruct (fp_with_pf t Hr x y [] [] Hx Hy (f_equal (λ l, l ++ []) E)). }
  induction t; intros x y Hx Hy E; try (apply H in E; [exact E|by intros []|exact Hx|exact Hy]).
  - exact E.
  - cbn [fp_with] in E. destruct x as [x|], y as [y|]; cbn [with_option] in E.
    + f_equal. apply IHt; [done|done|]. rewrite (fp_with_appends t x), (fp_with_appends t y) in E. exact (f_equal tail E).
    + rewrite (fp_with_appends t x) in E. discriminate E.
    + rewrite (fp_with_appends t y) in E. discriminate E.
    + done.
Qed.

Lemma with_all_acc ts : ∀ xs b, with_all ts xs b =
  Builder (fb_acc b ++ chain_message ts xs) (fb_algorithm b) (fb_version b) (fb_namespace b).
Proof.
  unfold chain_message. induction ts as [|t ts IH]; intros xs b; cbn [with_all].
  - destruct b; cbn. by rewrite app_nil_r.
  - rewrite (IH xs.2), (IH xs.2 (builder_with _ (Builder [] [] 0 []))). cbn [builder_with fb_acc fb_algorithm fb_version fb_namespace].
    by rewrite (fp_with_appends t xs.1 (fb_acc b)), app_assoc.
Qed.
Lemma chain_cons t ts (xs : fp_vals (t :: ts)) : chain_message (t :: ts) xs = fp_with t xs.1 [] ++ chain_message ts xs.2.
Proof. unfold chain_message at 1. cbn [with_all]. by rewrite with_all_acc. Qed.

Lemma chain_inj ts : raw_only_last ts → ∀ xs ys, vals_ok ts xs → vals_ok ts ys →
  chain_message ts xs = chain_message ts ys → xs = ys.
Proof.
  induction ts as [|t ts IH]; intros Hr xs ys Hx Hy E; [by destruct xs, ys|].
  destruct xs as [x xs], ys as [y ys], Hx as [Hx Hxs], Hy as [Hy Hys]. rewrite !chain_cons in E. cbn [fst snd] in *.
  destruct ts as [|t' ts].
  - destruct xs, ys. f_equal. unfold chain_message in E. cbn in E. rewrite !app_nil_r in E. by apply (fp_with_inj t).
  - apply fp_with_pf in E as [-> E]; [|intros Ht; by specialize (Hr [] t (t' :: ts) eq_refl Ht)|done|done].
    f_equal. apply IH; [|done|done|done]. intros us u vs Eu. apply (Hr (t :: us)). by rewrite Eu.
Qed.

Lemma chain_tags ts alg v ns alg' v' ns' b b' xs ys : raw_only_last ts → vals_ok ts xs → vals_ok ts ys →
  builder_new alg v ns = Ok b → builder_new alg' v' ns' = Ok b' →
  tag (builder_build (with_all ts xs b)) = tag (builder_build (with_all ts ys b')) ↔
  alg = alg' ∧ v = v' ∧ ns = ns' ∧ (xs = ys ∨ sha1_collision (chain_message ts xs) (chain_message ts ys)).
Proof.
  intros Hr Hx Hy Hb Hb'.
  pose proof (build_new_ok _ _ _ _ (λ _, chain_message ts xs) Hb) as Hok.
  pose proof (build_new_ok _ _ _ _ (λ _, chain_message ts ys) Hb') as Hok'.
  apply builder_new_ok in Hb as (_ & _ & ->), Hb' as (_ & _ & ->). rewrite !with_all_acc. cbn [fb_acc fb_algorithm fb_version fb_namespace app].
  split.
  - intros E. apply tag_inj in E; [|exact Hok|exact Hok']. unfold builder_build in E. cbn [fb_acc fb_algorithm fb_version fb_namespace] in E.
    injection E as -> -> -> E. refine (conj eq_refl (conj eq_refl (conj eq_refl _))). apply into_base64_inj in E.
    destruct (decide (chain_message ts xs = chain_message ts ys)) as [E'|]; [left; by apply (chain_inj ts)|by right].
  - intros (-> & -> & -> & [->|[_ E]]); [done|]. unfold builder_build, into_base64. cbn [fb_acc fb_algorithm fb_version fb_namespace].
    by rewrite E.
Qed.

Lemma number_bytes t k x : width t = Some k → val_ok t x →
  let m := fp_with t x [] in
  N.of_nat (length m) = k ∧ Z.of_N (be_value m) = (as_number t x mod 2 ^ (8 * Z.of_N k))%Z ∧ ∀ b, b ∈ m → b < 256.
Proof.
  intros Hw Hx m. subst m.
  assert (∀ n (j : nat), n < 256 ^ N.of_nat j →
    length (be_bytes j n) = j ∧ be_value (be_bytes j n) = n ∧ ∀ b, b ∈ be_bytes j n → b < 256) as H.
  { intros n j Hn. rewrite be_value_bytes, N.mod_small by done. split; [apply be_bytes_length|]. split; [done|]. apply be_bytes_lt. }
  destruct t; try discriminate Hw; injection Hw as <-; cbn [fp_with val_ok as_number] in *; unfold i32_ok, i64_ok in *.
  - assert (Z.to_N (x mod 256) < 256 ^ N.of_nat 1) as Hn by (simpl; lia). change (with_i8 x []) with [Z.to_N (x mod 256)].
    split; [done|]. split; [change (be_value [Z.to_N (x mod 256)]) with (0 * 256 + Z.to_N (x mod 256)); lia|].
    intros b ->%elem_of_list_singleton. lia.
  - destruct (H (Z.to_N (x mod 65536)) 2%nat) as (E1 & E2 & E3); [simpl; lia|]. change (with_i16 x []) with (be_bytes 2 (Z.to_N (x mod 65536))).
    rewrite E1, E2. refine (conj eq_refl (conj _ E3)). lia.
  - destruct (H (Z.to_N (x mod 4294967296)) 4%nat) as (E1 & E2 & E3); [simpl; lia|]. change (with_i32 x []) with (be_bytes 4 (Z.to_N (x mod 4294967296))).
    rewrite E1, E2. refine (conj eq_refl (conj _ E3)). lia.
  - destruct (H (Z.to_N (x mod 18446744073709551616)) 8%nat) as (E1 & E2 & E3); [simpl; lia|]. change (with_i64 x []) with (be_bytes 8 (Z.to_N (x mod 18446744073709551616))).
    rewrite E1, E2. refine (conj eq_refl (conj _ E3)). lia.
  - destruct (H x 1%nat) as (E1 & E2 & E3); [done|]. change (with_u8 x []) with (be_bytes 1 x).
    rewrite E1, E2. refine (conj eq_refl (conj _ E3)). rewrite Z.mod_small; lia.
  - destruct (H x 2%nat) as (E1 & E2 & E3); [done|]. change (with_u16 x []) with (be_bytes 2 x).
    rewrite E1, E2. refine (conj eq_refl (conj _ E3)). rewrite Z.mod_small; lia.
  - destruct (H x 4%nat) as (E1 & E2 & E3); [done|]. change (with_u32 x []) with (be_bytes 4 x).
    rewrite E1, E2. refine (conj eq_refl (conj _ E3)). rewrite Z.mod_small; lia.
  - destruct (H x 8%nat) as (E1 & E2 & E3); [done|]. change (with_u64 x []) with (be_bytes 8 x).
    rewrite E1, E2. refine (conj eq_refl (conj _ E3)). rewrite Z.mod_small; lia.
  - destruct (H x 8%nat) as (E1 & E2 & E3); [done|]. change (with_usize x []) with (be_bytes 8 x).
    rewrite E1, E2. refine (conj eq_refl (conj _ E3)). rewrite Z.mod_small; lia.
Qed.
Lemma five_is_chain r ns i : five_fingerprint_v1 r ns i =
  let! b := builder_new (s2l "nwcsv5") 1 ns in
  let c side := builder_build (with_all [TDate; TI32; TStr; TStr; TOption TAmount; TOption TAmount; TStr]
    (r5_date r, (i, (r5_transactions r, (r5_location r, (r5_paid_out r, (r5_paid_in r, (side, tt))))))) b) in
  Ok (c (s2l "self"), c (s2l "peer")).
Proof. reflexivity. Qed.

Lemma only_last us t : List.Forall (λ t, ¬ raw t) us → raw_only_last (us ++ [t]).
Proof.
  intros H us' t' vs E Ht. induction H as [|u us Hu _ IH] in us', E |- *; cbn [app] in E.
  - destruct us' as [|? us']; cbn [app] in E; [by injection E|]. injection E as _ E. by destruct us'.
  - destruct us' as [|? us']; cbn [app] in E; injection E as E1 E2; [by subst|]. by apply (IH us').
Qed.
Lemma raw_collide : ∃ ts xs ys, vals_ok ts xs ∧ vals_ok ts ys ∧ xs ≠ ys ∧
  ∀ b, with_all ts xs b = with_all ts ys b.
Proof.
  assert (∀ b, b ∈ [1; 2] → b < 256) as H2 by (intros b [->|[->|[]%elem_of_nil]%elem_of_cons]%elem_of_cons; done).
  assert (∀ b, b ∈ [3] → b < 256) as H1 by (intros b ->%elem_of_list_singleton; done).
  assert (∀ b, b ∈ [1] → b < 256) as H1' by (intros b ->%elem_of_list_singleton; done).
  assert (∀ b, b ∈ [2; 3] → b < 256) as H2' by (intros b [->|[->|[]%elem_of_nil]%elem_of_cons]%elem_of_cons; done).
  exists [TBytes; TBytes], ([1; 2], ([3], tt)), ([1], ([2; 3], tt)).
  refine (conj (conj H2 (conj H1 I)) (conj (conj H1' (conj H2' I)) (conj _ _))); [discriminate|].
  intros b. rewrite !with_all_acc. reflexivity.
Qed.
Lemma types_collide : ∃ ts ts' xs ys, raw_only_last ts ∧ raw_only_last ts' ∧ vals_ok ts xs ∧ vals_ok ts' ys ∧ ts ≠ ts' ∧
  ∀ b, with_all ts xs b = with_all ts' ys b.
Proof.
  exists [TU8; TU8], [TU16], (1, (2, tt)), (258, tt).
  refine (conj _ (conj _ (conj _ (conj _ (conj _ _))))).
  - apply (only_last [TU8] TU8). repeat (constructor; [by intros []|]). constructor.
  - apply (only_last [] TU16). constructor.
  - cbn. repeat split; lia.
  - cbn. repeat split; lia.
  - discriminate.
  - intros b. rewrite !with_all_acc. reflexivity.
Qed.
