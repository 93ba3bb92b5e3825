(** Witnesses for PropsComment.v. *)
From Verif Require Import Base Types SpecBase BaseProofs StrProofs CommentModel CommentClaims CommentProofs CommentLaws.
Local Open Scope nat_scope.

Lemma no_flags_compute l : flag_scan (length l) [] l = ([], l) → no_flags l.
Proof. intros E. by destruct (flag_scan_line _ _ _ E) as (parts & _ & _ & H & _). Qed.
Definition tag_name_b (t : str) : bool := negb (bool_decide (t = [])) && forallb tag_char t.
Lemma tag_name_compute t : tag_name_b t = true → tag_name t.
Proof.
  unfold tag_name_b. rewrite andb_true_iff, negb_true_iff, bool_decide_eq_false. intros [H1 H2].
  apply tag_name_intro; [done|]. apply Forall_forall. intros c Hc. rewrite forallb_forall in H2.
  apply H2. by apply elem_of_list_In.
Qed.
Definition representable_b (c : comment) : Prop :=
  Forall (λ t, tag_name_b t = true ∧ newline ∉ t) (elements (tags c)) ∧
  Forall (λ l, l ≠ [] ∧ trim l = l ∧ newline ∉ l ∧ flag_scan (length l) [] l = ([], l)) (lines c) ∧
  Forall (λ l, value_tag_rx l = None) (if decide (tags c = ∅) then lines c else drop 1 (lines c)) ∧
  Forall (λ p, tag_name_b p.1 = true ∧ trim p.1 = p.1 ∧ newline ∉ p.1 ∧ p.2 ≠ [] ∧ trim p.2 = p.2 ∧ newline ∉ p.2)
    (map_to_list (value_tags c)).
#[export] Instance representable_b_dec c : Decision (representable_b c).
Proof. unfold representable_b. apply _. Defined.
Lemma representable_compute c : representable_b c → representable c.
Proof.
  intros (H1 & H2 & H3 & H4). pose proof (proj1 (Forall_forall _ _) H1) as H1x. pose proof (proj1 (Forall_forall _ _) H2) as H2x. pose proof (proj1 (Forall_forall _ _) H3) as H3x. pose proof (proj1 (Forall_forall _ _) H4) as H4x. split.
  - intros t Ht%elem_of_elements%H1x. split; [|apply Ht]. apply tag_name_compute, Ht.
  - intros l Hl%H2x. split_and!; [apply Hl..|]. apply no_flags_compute, Hl.
  - intros i l k Hi Hc. assert (l ∈ lines c) as Hl by (by eapply elem_of_list_lookup_2).
    destruct (H2x l Hl) as (_ & _ & Hnl & _). apply value_tag_rx_None; [done|]. apply H3x.
    case_decide as Ht; [done|]. destruct Hc as [Hi0|]; [|done]. destruct i as [|i]; [done|].
    apply elem_of_list_lookup. exists i. by rewrite lookup_drop.
  - intros k v Hk%elem_of_map_to_list%H4x. simpl in Hk. split_and!; [apply tag_name_compute, Hk|apply Hk..].
  - intros k v Hk%elem_of_map_to_list%H4x. simpl in Hk. split_and!; apply Hk.
Qed.

Definition ex_c : comment :=
  Comment [s2l "key: of a tagged line"; s2l "a : b :c"] {[ s2l "fp-sha1.1:"; s2l "b" ]} {[ s2l "k" := s2l "v  w" ]}.
Definition ex_c1 : comment :=
  Comment [s2l "key: of a tagged line"; s2l "a : b :c"] {[ s2l "fp-sha1.1-acct.Zm9vYmFy"; s2l "bank" ]}
    {[ s2l "k" := s2l "v :x: w"; s2l "source-file" := s2l "a/b.ledger" ]}.
Lemma ex_c1_representable : representable ex_c1.
Proof. apply representable_compute. by_compute. Qed.
Lemma ex_c_not_representable : ¬ representable ex_c.
Proof.
  intros [H _ _ _ _]. destruct (H (s2l "fp-sha1.1:")) as [[_ Hc] _].
  - unfold ex_c. simpl. set_solver.
  - destruct (Hc colon) as [[] _]; [by_compute|done].
Qed.
Definition reverse_order : hash_order :=
  HashOrder (λ s, reverse (elements s)) (λ A m, reverse (map_to_list m)) (λ A m, reverse (map_to_list m)).
Lemma reverse_order_ok : hash_order_ok reverse_order.
Proof. split_and!; intros; simpl; apply reverse_Permutation. Qed.
Lemma value_lost : ∃ c k, tag_name k ∧ value_tags c = {[ k := [] ]} ∧ lines c = [] ∧ tags c = ∅ ∧
    from_opt_comment (into_opt_comment default_order c) = Comment [k ++ [colon]] ∅ ∅.
Proof.
  exists (Comment [] ∅ {[ s2l "key" := [] ]}), (s2l "key"). split_and!; [|done|done|done|by_compute].
  apply tag_name_compute. by_compute.
Qed.
Lemma not_fixed : ∃ s, let text := into_opt_comment default_order (from_opt_comment (Some s)) in
    into_opt_comment default_order (from_opt_comment text) ≠ text.
Proof. exists (s2l "key:"). cbv zeta; by_compute. Qed.
Lemma merge_values_lookup a b k : value_tags (merge_from a b) !! k =
    match value_tags b !! k with Some v => Some v | None => value_tags a !! k end.
Proof.
  unfold merge_from. cbn [value_tags]. rewrite lookup_union.
  destruct (value_tags b !! k), (value_tags a !! k); done.
Qed.
