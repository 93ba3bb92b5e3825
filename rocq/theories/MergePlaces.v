(** Where each source posting ends up. *)
From Verif Require Import Base Types CommentModel MergeModel SpecBase BaseProofs MergeSpec MergeClaims
  MergeProofs MergePending MergeApply MergeBuild MergeClosed MergeLemmas.
From Coq Require Import Lia.
Local Open Scope nat_scope.

Fixpoint locs (c : nat) (l : list (posting_internal * verdict)) : list nat :=
  match l with
  | [] => []
  | (_, VMerge i) :: l => i :: locs c l
  | (_, VNew) :: l => c :: locs (S c) l
  | _ :: l => 0 :: locs c l
  end.
Fixpoint places (j : journal) (n c : nat) (tps : list transaction_postings) : list (nat * list nat) :=
  match tps with
  | [] => []
  | tp :: tps =>
      (target j n tp, locs c (todo_of j tp)) ::
      places j (if fresh j tp then S n else n) (c + length (news_from (todo_of j tp))) tps
  end.

Lemma locs_length c l : length (locs c l) = length l.
Proof. revert c; induction l as [|[p []] l IH]; intros c; simpl; auto. Qed.
Lemma places_length j n c tps : length (places j n c tps) = length tps.
Proof. revert n c; induction tps as [|tp tps IH]; intros n c; simpl; auto. Qed.

Lemma locs_spec l : ∀ c b p v i, l !! b = Some (p, v) → locs c l !! b = Some i →
  (v = VMerge i) ∨
  (v = VNew ∧ c ≤ i ∧ news_from l !! (i - c) = Some p) ∨ (∀ k, v ≠ VMerge k) ∧ v ≠ VNew.
Proof.
  induction l as [|[q w] l IH]; intros c b p v i Hb Hi; [done|].
  destruct b as [|b]; simpl in Hb; simplify_eq.
  - destruct v as [k| |am|]; simpl in Hi; simplify_eq; [by left| |by right; right..].
    right; left. split_and!; [done|lia|]. unfold news_from. csimpl. by rewrite Nat.sub_diag.
  - destruct w as [k| |am|]; simpl in Hi.
    + destruct (IH c b p v i Hb Hi) as [?|[(?&?&?)|?]]; [by left|right; left|by right; right]. done.
    + destruct (IH (S c) b p v i Hb Hi) as [?|[(?&?&E)|?]]; [by left|right; left|by right; right].
      split_and!; [done|lia|]. unfold news_from in *. csimpl.
      replace (i - c) with (S (i - S c)) by lia. done.
    + destruct (IH c b p v i Hb Hi) as [?|[(?&?&?)|?]]; [by left|right; left|by right; right]. done.
    + destruct (IH c b p v i Hb Hi) as [?|[(?&?&?)|?]]; [by left|right; left|by right; right]. done.
Qed.

Lemma places_spec j tps : ∀ n c a tp t ls,
  tps !! a = Some tp → places j n c tps !! a = Some (t, ls) →
  length ls = length (todo_of j tp) ∧
  (∃ n', t = target j n' tp ∧ n ≤ n' ∧
    (fresh j tp = true → new_trns j tps !! (n' - n) = Some (tp_trn tp))) ∧
  ∀ b p v i, todo_of j tp !! b = Some (p, v) → ls !! b = Some i →
    (v = VMerge i) ∨
    (v = VNew ∧ c ≤ i ∧ new_posts j n tps !! (i - c) = Some (JP t (tp_date tp) p)) ∨
    (∀ k, v ≠ VMerge k) ∧ v ≠ VNew.
Proof.
  induction tps as [|tp0 tps IH]; intros n c a tp t ls Ha Hp; [done|].
  destruct a as [|a]; simpl in Ha, Hp; simplify_eq.
  - split; [by rewrite locs_length|]. split.
    { exists n. split_and!; [done|lia|]. intros Hf. unfold new_trns. rewrite filter_cons_True by by rewrite Hf.
      by rewrite Nat.sub_diag. }
    intros b p v i Hb Hi. destruct (locs_spec _ _ _ _ _ _ Hb Hi) as [?|[(?&?&E)|?]];
      [by left|right; left|by right; right].
    split_and!; [done..|]. cbn [new_posts]. rewrite lookup_app_l.
    + unfold new_of. by rewrite list_lookup_fmap, E.
    + unfold new_of. rewrite fmap_length. by eapply lookup_lt_Some.
  - destruct (IH _ _ _ _ _ _ Ha Hp) as (Hl & (n' & -> & Hn & Hf) & H). split; [done|]. split.
    { exists n'. split_and!; [done|destruct (fresh j tp0); lia|]. intros Hfr. specialize (Hf Hfr).
      unfold new_trns in *. destruct (fresh j tp0) eqn:E0.
      - rewrite filter_cons_True by by rewrite E0. replace (n' - n) with (S (n' - S n)) by lia. done.
      - rewrite filter_cons_False by by rewrite E0. done. }
    intros b p v i Hb Hi. destruct (H b p v i Hb Hi) as [?|[(?&?&E)|?]];
      [by left|right; left|by right; right].
    split_and!; [done|lia|]. cbn [new_posts]. unfold new_of.
    rewrite lookup_app_r; rewrite fmap_length; [|lia].
    by replace (i - c - length (news_from (todo_of j tp0))) with (i - (c + length (news_from (todo_of j tp0)))) by lia.
Qed.

(** All locations are distinct. *)
Lemma locs_elem l : ∀ c i, (∀ p v, (p, v) ∈ l → v = VNew ∨ ∃ k, v = VMerge k) → i ∈ locs c l →
  (c ≤ i < c + length (news_from l)) ∨
  i ∈ omap (λ pv : posting_internal * verdict, match pv.2 with VMerge i => Some i | _ => None end) l.
Proof.
  induction l as [|[p v] l IH]; intros c i Hv; simpl; [by intros ?%elem_of_nil|].
  assert (∀ p v, (p, v) ∈ l → v = VNew ∨ ∃ k, v = VMerge k) as Hv' by (intros; apply (Hv p0); by right).
  destruct (Hv p v) as [->|[k ->]]; [left|..]; unfold news_from; csimpl; intros [->|Hi]%elem_of_cons.
  - left. lia.
  - destruct (IH (S c) i Hv' Hi) as [?|?]; [left|by right]. unfold news_from in *. lia.
  - right. left.
  - destruct (IH c i Hv' Hi) as [?|?]; [by left|right; by right].
Qed.
Lemma NoDup_locs l : ∀ c, (∀ p v, (p, v) ∈ l → v = VNew ∨ ∃ k, v = VMerge k ∧ k < c) →
  NoDup (omap (λ pv : posting_internal * verdict, match pv.2 with VMerge i => Some i | _ => None end) l) →
  NoDup (locs c l).
Proof.
  induction l as [|[p v] l IH]; intros c Hv Hn; simpl; [constructor|].
  assert (∀ p v, (p, v) ∈ l → v = VNew ∨ ∃ k, v = VMerge k ∧ k < c) as Hv' by (intros; apply (Hv p0); by right).
  assert (∀ p v, (p, v) ∈ l → v = VNew ∨ ∃ k, v = VMerge k) as Hv''.
  { intros q w Hq. destruct (Hv' q w Hq) as [?|(? & ? & ?)]; eauto. }
  destruct (Hv p v) as [->|[k [-> Hk]]]; [left|..]; csimpl in Hn; csimpl.
  - apply NoDup_cons. split.
    + intros [?|Hi]%locs_elem; [lia| |done].
      apply elem_of_list_omap in Hi as ([q w] & Hq & E). destruct (Hv' q w Hq) as [->|(k & -> & Hk)]; simplify_eq/=. lia.
    + apply IH; [|done]. intros q w Hq. destruct (Hv' q w Hq) as [->|(k & -> & Hk)]; [by left|right].
      exists k. split; [done|lia].
  - apply NoDup_cons in Hn as [Hk' Hn]. apply NoDup_cons. split; [|by apply IH].
    intros [?|Hi]%locs_elem; [lia|done|done].
Qed.

Lemma locs_app l k c : locs c (l ++ k) = locs c l ++ locs (c + length (news_from l)) k.
Proof.
  revert c. induction l as [|[p []] l IH]; intros c; unfold news_from; csimpl.
  - by rewrite Nat.add_0_r.
  - by rewrite IH.
  - rewrite IH. simpl. do 3 f_equal. unfold news_from. lia.
  - by rewrite IH.
  - by rewrite IH.
Qed.
Lemma places_locs j tps : ∀ n c, places j n c tps ≫= snd = locs c (tps ≫= todo_of j).
Proof.
  induction tps as [|tp tps IH]; intros n c; [done|]. cbn [places]. rewrite !bind_cons, IH, locs_app. done.
Qed.

(** A place: existing or new posting number [i] of the merged journal, and what
    it holds. *)
Record placed (j : journal) (tps : list transaction_postings) (tp : transaction_postings)
    (p : posting_internal) (t i : nat) : Prop := {
  pl_cases :
    (∃ x, j_posts j !! i = Some x ∧ lookup_posting j (tp_date tp) p = VMerge i ∧ jp_trn x = t ∧
       merged_into j tps i = [p] ∧
       j_posts (spec_merge j tps) !! i = Some (JP t (jp_date x) (merge_posting (jp_post x) p))) ∨
    (length (j_posts j) ≤ i ∧ lookup_posting j (tp_date tp) p = VNew ∧
       j_posts (spec_merge j tps) !! i = Some (JP t (tp_date tp) p));
}.

Lemma todo_lookup j tp b p : left_out j tp = false → tp_posts tp !! b = Some p →
  todo_of j tp !! b = Some (p, lookup_posting j (tp_date tp) p).
Proof.
  intros El Hb. unfold todo_of, verdicts. rewrite El.
  rewrite lookup_zip_with, Hb, list_lookup_fmap, Hb. done.
Qed.
Lemma todo_length j tp : left_out j tp = false → length (todo_of j tp) = length (tp_posts tp).
Proof. intros El. unfold todo_of, verdicts. rewrite El, zip_with_length_l_eq; [done|by rewrite fmap_length]. Qed.

Definition the_places (j : journal) (tps : list transaction_postings) :=
  places j (length (j_trns j)) (length (j_posts j)) tps.

Section placed.
  Context (j : journal) (tps : list transaction_postings).
  Context (Hwf : journal_wf j) (Hv : valid_set j tps).

  Lemma todo_cases p v : (p, v) ∈ tps ≫= todo_of j → v = VNew ∨ ∃ k, v = VMerge k ∧ k < length (j_posts j).
  Proof using Hwf Hv.
    intros Hin. pose proof (initial_todo j tps Hwf Hv) as H.
    destruct (td_verdict _ _ H _ _ Hin) as [->|[k ->]]; [by left|right].
    exists k. split; [done|]. by eapply td_lt.
  Qed.
  Lemma NoDup_places : NoDup (the_places j tps ≫= snd).
  Proof using Hwf Hv.
    unfold the_places. rewrite places_locs. apply NoDup_locs.
    - intros p v Hin. by apply todo_cases in Hin.
    - rewrite <- all_dests_todo. apply Hv.
  Qed.
  Lemma merged_into_one i p : p ∈ merged_into j tps i → merged_into j tps i = [p].
  Proof using Hv.
    intros Hp. pose proof (merged_into_le1 j tps i (vs_dests_distinct _ _ Hv)) as Hl.
    destruct (merged_into j tps i) as [|q [|r l]]; [by apply elem_of_nil in Hp| |simpl in Hl; lia].
    apply elem_of_list_singleton in Hp. by subst.
  Qed.
  Lemma place_of a tp t ls : tps !! a = Some tp → left_out j tp = false →
    the_places j tps !! a = Some (t, ls) →
    length ls = length (tp_posts tp) ∧
    ∀ b p i, tp_posts tp !! b = Some p → ls !! b = Some i → placed j tps tp p t i.
  Proof using Hwf Hv.
    intros Ha El Hpl. destruct (places_spec _ _ _ _ _ _ _ _ Ha Hpl) as (Hlen & (n' & Ht & Hn & Hf) & H).
    split; [by rewrite Hlen, todo_length|]. intros b p i Hb Hi.
    pose proof (todo_lookup _ _ _ _ El Hb) as Htodo.
    assert ((p, lookup_posting j (tp_date tp) p) ∈ tps ≫= todo_of j) as Hin.
    { apply elem_of_list_bind. exists tp. split; [by eapply elem_of_list_lookup_2|by eapply elem_of_list_lookup_2]. }
    assert (tp ∈ tps) as Htp by by eapply elem_of_list_lookup_2.
    assert (p ∈ tp_posts tp) as Hptp by by eapply elem_of_list_lookup_2.
    constructor. destruct (H _ _ _ _ Htodo Hi) as [E|[(E & Hc & Hnew)|[E1 E2]]].
    - left. destruct (todo_cases _ _ Hin) as [|(k & E' & Hk)]; [congruence|].
      assert (k = i) as -> by congruence.
      apply lookup_lt_is_Some in Hk as [x Hx]. exists x.
      assert (i ∈ dests j tp) as Hid.
      { unfold dests, verdicts. apply elem_of_list_omap. exists (VMerge i). split; [|done].
        apply elem_of_list_fmap. exists p. by rewrite E. }
      assert (jp_trn x = t) as Hxt.
      { subst t. unfold target. destruct (dest_trns j tp) as [|t' ts] eqn:Ed.
        - apply dest_trns_nil in Ed. rewrite Ed in Hid. by apply elem_of_nil in Hid.
        - assert (t' ∈ dest_trns j tp) as Ht' by (rewrite Ed; left).
          unfold dest_trns in Ht'. apply elem_of_list_bind in Ht' as (k & Hk & Hkd).
          destruct (j_posts j !! k) as [y|] eqn:Ey; simpl in Hk; [|by apply elem_of_nil in Hk].
          apply elem_of_list_singleton in Hk. subst t'.
          by eapply (vs_one_trn _ _ Hv tp i k). }
      assert (merged_into j tps i = [p]) as Hm.
      { apply merged_into_one. apply elem_of_merged_into. eauto 6. }
      split_and!; [done..|].
      rewrite spec_merge_closed. cbn [j_posts]. rewrite lookup_app_l.
      2:{ rewrite imap_length. by eapply lookup_lt_Some. }
      rewrite list_lookup_imap, Hx. simpl. unfold absorb. rewrite Hm. simpl. by rewrite Hxt.
    - right. split_and!; [done..|].
      rewrite spec_merge_closed. cbn [j_posts]. rewrite lookup_app_r; rewrite imap_length; [|done].
      done.
    - destruct (todo_cases _ _ Hin) as [?|(k & ? & _)]; [done|by edestruct E1].
  Qed.
End placed.

(** ** What a call does, by cases *)
Lemma merge_cases ho m j tps m' r :
  hash_order_ok ho → represents m j → journal_wf j → merge ho m tps = (m', r) →
  (valid_set j tps ∧ journal_wf (spec_merge j tps) ∧ represents m' (spec_merge j tps) ∧
   ∃ un, r = Ok un ∧ Forall2 (returned_as j) (filter (λ tp, left_out j tp = true) tps) un) ∨
  (¬ valid_set j tps ∧ m' = m ∧ ∃ e, r = Err e).
Proof.
  intros Hho Hrep Hwf E. destruct (valid_set_cases ho Hho m j tps Hrep Hwf) as [Hv|Hv].
  - left. destruct (merge_accepts ho Hho m j tps Hrep Hwf Hv) as (Hwf' & m1 & un & E' & Hrep' & Hun).
    rewrite E in E'. simplify_eq. eauto 8.
  - right. destruct (merge_rejects ho Hho m j tps Hrep Hwf Hv) as [e E']. rewrite E in E'. simplify_eq. eauto.
Qed.
