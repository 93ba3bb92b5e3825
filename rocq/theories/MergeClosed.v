(** A closed form of [spec_merge]: which source posting goes where. *)
From Verif Require Import Base Types CommentModel MergeModel SpecBase BaseProofs MergeSpec MergeProofs MergePending MergeApply.
From Coq Require Import Lia.

(** Sources merged into existing posting [i]. *)
Definition merged_from (i : nat) (l : list (posting_internal * verdict)) : list posting_internal :=
  omap (λ pv : posting_internal * verdict,
          match pv.2 with VMerge k => if decide (k = i) then Some pv.1 else None | _ => None end) l.
Definition news_from (l : list (posting_internal * verdict)) : list posting_internal :=
  omap (λ pv : posting_internal * verdict, match pv.2 with VNew => Some pv.1 | _ => None end) l.
Definition merged_into (j : journal) (tps : list transaction_postings) (i : nat) :=
  merged_from i (tps ≫= todo_of j).

(** Input transactions that become new transactions. *)
Definition fresh (j : journal) (tp : transaction_postings) : bool :=
  negb (left_out j tp) && bool_decide (dests j tp = []).
Definition target (j : journal) (n : nat) (tp : transaction_postings) : nat :=
  match dest_trns j tp with t :: _ => t | [] => n end.
Definition new_of (j : journal) (n : nat) (tp : transaction_postings) : list jpost :=
  JP (target j n tp) (tp_date tp) <$> news_from (todo_of j tp).
Fixpoint new_posts (j : journal) (n : nat) (tps : list transaction_postings) : list jpost :=
  match tps with
  | [] => []
  | tp :: tps => new_of j n tp ++ new_posts j (if fresh j tp then S n else n) tps
  end.
Definition new_trns (j : journal) (tps : list transaction_postings) : list transaction_internal :=
  tp_trn <$> filter (λ tp, is_true (fresh j tp)) tps.

Definition absorb (L : nat → list posting_internal) (i : nat) (x : jpost) : jpost :=
  JP (jp_trn x) (jp_date x) (foldl merge_posting (jp_post x) (L i)).

Lemma fold_posts_closed t d ps pvs : ∀ L np,
  (∀ p i, (p, VMerge i) ∈ pvs → (i < length ps)%nat) →
  foldl (apply_posting t d) (imap (absorb L) ps ++ np) pvs =
  imap (absorb (λ i, L i ++ merged_from i pvs)) ps ++ np ++ (JP t d <$> news_from pvs).
Proof.
  induction pvs as [|[p v] pvs IH]; intros L np Hlt; cbn [foldl].
  - rewrite app_nil_r. f_equal. apply imap_ext_lookup. intros i x _. unfold absorb, merged_from.
    simpl. by rewrite app_nil_r.
  - assert (∀ p i, (p, VMerge i) ∈ pvs → (i < length ps)%nat) as Hlt'.
    { intros q k Hq. eapply Hlt. by right. }
    destruct v as [i| |am|]; unfold apply_posting at 2; cbn [fst snd].
    + assert (i < length ps)%nat as Hi by (eapply Hlt; left).
      assert (alter (λ x, JP (jp_trn x) (jp_date x) (merge_posting (jp_post x) p)) i
                (imap (absorb L) ps ++ np)
              = imap (absorb (λ k, L k ++ if decide (i = k) then [p] else [])) ps ++ np) as ->.
      { rewrite alter_app_l by (by rewrite imap_length). f_equal.
        apply list_eq. intros k. destruct (decide (i = k)) as [->|Hne].
        - rewrite list_lookup_alter, !list_lookup_imap. destruct (ps !! k); simpl; [|done].
          unfold absorb. rewrite decide_True by done. simpl. by rewrite foldl_app.
        - rewrite list_lookup_alter_ne, !list_lookup_imap by done. destruct (ps !! k); simpl; [|done].
          unfold absorb. by rewrite decide_False, app_nil_r by done. }
      rewrite IH by done. f_equal.
      * apply imap_ext_lookup. intros k x _. unfold absorb, merged_from. csimpl.
        rewrite <- app_assoc. destruct (decide (i = k)); done.
    + rewrite <- app_assoc, IH by done. rewrite <- app_assoc. f_equal.
    + rewrite IH by done. done.
    + rewrite IH by done. done.
Qed.

Lemma fresh_dest_trns j tp : left_out j tp = false →
  fresh j tp = match dest_trns j tp with [] => true | _ => false end.
Proof.
  intros El. unfold fresh. rewrite El. simpl.
  destruct (dest_trns j tp) as [|t ts] eqn:E.
  - apply dest_trns_nil in E. by rewrite bool_decide_eq_true_2.
  - rewrite bool_decide_eq_false_2; [done|]. intros En. unfold dest_trns in E. by rewrite En in E.
Qed.

Lemma todo_lt j tp p i : (p, VMerge i) ∈ todo_of j tp → (i < length (j_posts j))%nat.
Proof.
  intros (El & Hp & E)%elem_of_todo. apply (dests_valid j tp).
  unfold dests. apply elem_of_list_omap. exists (VMerge i). split; [|done].
  unfold verdicts. rewrite E. apply elem_of_list_fmap. eauto.
Qed.

Lemma apply_trn_closed j tp nt L np :
  apply_trn j (Journal (j_trns j ++ nt) (imap (absorb L) (j_posts j) ++ np)) tp =
  Journal (j_trns j ++ nt ++ if fresh j tp then [tp_trn tp] else [])
    (imap (absorb (λ i, L i ++ merged_from i (todo_of j tp))) (j_posts j) ++
     np ++ new_of j (length (j_trns j) + length nt) tp).
Proof.
  unfold apply_trn, new_of, target.
  change (dests j tp ≫= (λ i, option_list (jp_trn <$> j_posts j !! i))) with (dest_trns j tp).
  pose proof (todo_lt j tp) as Hlt. unfold todo_of in *.
  destruct (left_out j tp) eqn:El.
  - unfold fresh. rewrite El. simpl. rewrite !app_nil_r. do 2 f_equal.
    apply imap_ext_lookup. intros i x _. unfold absorb. by rewrite app_nil_r.
  - rewrite (fresh_dest_trns j tp El). cbn [j_trns j_posts].
    destruct (dest_trns j tp) as [|t ts].
    + rewrite fold_posts_closed by done. rewrite <- app_assoc, app_length. done.
    + rewrite fold_posts_closed by done. rewrite app_nil_r. done.
Qed.

Lemma merged_from_app i l k : merged_from i (l ++ k) = merged_from i l ++ merged_from i k.
Proof. apply omap_app. Qed.

Lemma fold_trns_closed j tps : ∀ nt L np,
  foldl (apply_trn j) (Journal (j_trns j ++ nt) (imap (absorb L) (j_posts j) ++ np)) tps =
  Journal (j_trns j ++ nt ++ new_trns j tps)
    (imap (absorb (λ i, L i ++ merged_into j tps i)) (j_posts j) ++
     np ++ new_posts j (length (j_trns j) + length nt) tps).
Proof.
  induction tps as [|tp tps IH]; intros nt L np; cbn [foldl new_posts].
  - rewrite !app_nil_r. f_equal. f_equal. apply imap_ext_lookup. intros i x _. unfold absorb.
    by rewrite app_nil_r.
  - rewrite apply_trn_closed, IH. unfold new_trns, merged_into. rewrite bind_cons. f_equal.
    + rewrite <- app_assoc. do 2 f_equal. destruct (fresh j tp) eqn:E.
      * rewrite filter_cons_True; [done|]. by rewrite E.
      * rewrite filter_cons_False; [done|]. by rewrite E.
    + f_equal.
      * apply imap_ext_lookup. intros i x _. unfold absorb. by rewrite merged_from_app, app_assoc.
      * rewrite <- app_assoc. do 3 f_equal. rewrite app_length. destruct (fresh j tp); simpl; lia.
Qed.

Theorem spec_merge_closed j tps :
  spec_merge j tps =
  Journal (j_trns j ++ new_trns j tps)
    (imap (absorb (merged_into j tps)) (j_posts j) ++ new_posts j (length (j_trns j)) tps).
Proof.
  unfold spec_merge. pose proof (fold_trns_closed j tps [] (λ _, []) []) as E.
  rewrite !app_nil_r in E. simpl in E.
  rewrite Nat.add_0_r in E. etrans; [|exact E]. f_equal. destruct j as [ts ps]. simpl. f_equal.
  apply list_eq. intros i. rewrite list_lookup_imap. destruct (ps !! i) as [[]|]; done.
Qed.

Lemma elem_of_merged_into j tps i p :
  p ∈ merged_into j tps i ↔
  ∃ tp, tp ∈ tps ∧ left_out j tp = false ∧ p ∈ tp_posts tp ∧ lookup_posting j (tp_date tp) p = VMerge i.
Proof.
  unfold merged_into, merged_from. rewrite elem_of_list_omap. split.
  - intros ([q v] & Hin & E). apply elem_of_list_bind in Hin as (tp & Hin & Htp).
    apply elem_of_todo in Hin as (El & Hq & ->). simpl in E.
    destruct (lookup_posting j (tp_date tp) q) as [k| | |] eqn:Ev; try done.
    destruct (decide (k = i)); simplify_eq. eauto 6.
  - intros (tp & Htp & El & Hp & E). exists (p, VMerge i). split.
    + apply elem_of_list_bind. exists tp. split; [|done]. by apply elem_of_todo.
    + simpl. by rewrite decide_True.
Qed.

(** With distinct destinations, at most one source goes to each posting. *)
Lemma all_dests_todo j tps :
  all_dests j tps = omap (λ pv : posting_internal * verdict, match pv.2 with VMerge i => Some i | _ => None end) (tps ≫= todo_of j).
Proof.
  unfold all_dests. induction tps as [|tp tps IH]; [done|].
  rewrite !bind_cons, omap_app, IH. f_equal. unfold todo_of, dests.
  destruct (left_out j tp); [done|].
  unfold verdicts. induction (tp_posts tp) as [|p ps IHp]; csimpl; [done|].
  destruct (lookup_posting j (tp_date tp) p); simpl; rewrite IHp; done.
Qed.
Lemma merged_into_le1 j tps i : NoDup (all_dests j tps) → (length (merged_into j tps i) ≤ 1)%nat.
Proof.
  rewrite all_dests_todo. unfold merged_into, merged_from.
  induction (tps ≫= todo_of j) as [|[p v] l IH]; csimpl; [lia|].
  destruct v as [k| | |]; csimpl; auto. rewrite NoDup_cons. intros [Hk Hn]. specialize (IH Hn).
  destruct (decide (k = i)) as [->|]; [|done]. simpl.
  destruct (omap _ l) as [|q r] eqn:E; [simpl; lia|]. exfalso. apply Hk.
  assert (q ∈ merged_from i l) as Hq by (unfold merged_from; rewrite E; left).
  unfold merged_from in Hq. apply elem_of_list_omap in Hq as ([p' v'] & Hin & Hv).
  apply elem_of_list_omap. exists (p', v'). split; [done|]. simpl in *.
  destruct v' as [k| | |]; try done. destruct (decide (k = i)); simplify_eq. done.
Qed.

Lemma elem_of_new_posts j tps x : ∀ n, x ∈ new_posts j n tps →
  ∃ tp, tp ∈ tps ∧ left_out j tp = false ∧ jp_post x ∈ tp_posts tp ∧
    lookup_posting j (tp_date tp) (jp_post x) = VNew ∧ jp_date x = tp_date tp.
Proof.
  induction tps as [|tp tps IH]; intros n; cbn [new_posts]; [by intros ?%elem_of_nil|].
  intros [Hx|Hx]%elem_of_app.
  - unfold new_of, news_from in Hx. apply elem_of_list_fmap in Hx as (p & -> & Hp).
    apply elem_of_list_omap in Hp as ([q v] & Hin & E). apply elem_of_todo in Hin as (El & Hq & ->).
    simpl in *. destruct (lookup_posting j (tp_date tp) q) eqn:Ev; simplify_eq.
    exists tp. split_and!; try done. left.
  - destruct (IH _ Hx) as (tp' & ? & ?). exists tp'. split; [by right|done].
Qed.
