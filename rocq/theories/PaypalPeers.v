(** Without legacy fingerprints the other side of a PayPal row has none. *)
From Verif Require Import MergeSpec MergeClaims PropsMergeProofs.
From Verif Require Import Base Types SpecBase CommentModel MergeModel FingerprintModel TzModel PaypalModel
  CommentClaims FingerprintClaims ImportClaims ImportRows ImportLaws ImportPaypal BaseProofs.
Local Open Scope nat_scope.

Lemma pp_peer_bare ho tz db ns rows ts t i p : hash_order_ok ho → rows_ok rows →
  pp_import ho false tz db ns rows = Ok ts → t ∈ ts → t_postings t !! (2 * i + 1) = Some p → ¬ fingerprinted p.
Proof.
  intros Hho Hok Hi (k & Hk)%elem_of_list_lookup Hp (f & Hf).
  destruct (c50 _ _ _ _ _ _ _ Hi) as (gs & Hr & _ & _).
  destruct (pp_post_fps _ _ _ _ _ _ _ _ _ _ _ _ Hho Hok Hi Hr Hk Hp) as (ti & g & j & s & v & _ & En & _ & _ & _ & _ & F).
  destruct s; cbn in En; [lia|]. apply F in Hf. cbn in Hf. by apply elem_of_nil in Hf.
Qed.
Lemma pp_bare_exists ho tz db ns rows ts t : pp_import ho false tz db ns rows = Ok ts → t ∈ ts →
  ∃ p, t_postings t !! 1 = Some p.
Proof.
  intros Hi Ht. destruct (pp_trn _ _ _ _ _ _ _ _ Hi Ht) as (_ & g & -> & Hg). destruct g as [|v g]; [done|].
  destruct (group_posts_lookup ho false db ns (v :: g)) as [_ H]. destruct (H 0 v eq_refl) as [_ E]. by eexists.
Qed.
Lemma pp_never_merges ho tz db ns rows ts m ho1 tps : hash_order_ok ho → hash_order_ok ho1 → rows_ok rows →
  pp_import ho false tz db ns rows = Ok ts → ts ≠ [] → reachable m → (∀ tp, tp ∈ as_merged ts → tp ∈ tps) →
  ∃ e, merge ho1 m tps = (m, Err e).
Proof.
  intros Hho H1 Hok Hi Hne Hm Hin. destruct ts as [|t ts]; [done|].
  destruct (pp_bare_exists _ _ _ _ _ _ t Hi ltac:(left)) as (p & Hp).
  assert (¬ fingerprinted p) as Hb by exact (pp_peer_bare _ _ _ _ _ _ t 0 p Hho Hok Hi ltac:(left) Hp).
  apply (c13 m ho1 tps (posting_internal_of p) Hm H1).
  - apply elem_of_list_bind. exists (transaction_postings_of t). split.
    + apply elem_of_list_fmap. exists p. split; [done|]. exact (elem_of_list_lookup_2 _ _ _ Hp).
    + apply Hin. left.
  - intros [Hf _]. exact (Hb Hf).
Qed.
(** An import of no rows at all is the only one that gives no transactions. *)
Lemma pp_nonempty ho legacy tz db ns rows ts : pp_import ho legacy tz db ns rows = Ok ts → rows ≠ [] → ts ≠ [].
Proof.
  intros Hi Hr ->. destruct (c50 _ _ _ _ _ _ _ Hi) as (gs & H & _ & F). apply Forall2_nil_inv_r in F as ->.
  apply Hr. symmetry. exact (rn_all _ _ _ H).
Qed.
Lemma pp_rejected ho tz db ns rows ts m ho1 tps : hash_order_ok ho → hash_order_ok ho1 → rows_ok rows →
  pp_import ho false tz db ns rows = Ok ts → rows ≠ [] → reachable m → (∀ tp, tp ∈ as_merged ts → tp ∈ tps) →
  ∃ e, merge ho1 m tps = (m, Err e).
Proof.
  intros Hho H1 Hok Hi Hne. exact (pp_never_merges ho tz db ns rows ts m ho1 tps Hho H1 Hok Hi (pp_nonempty _ _ _ _ _ _ _ Hi Hne)).
Qed.
