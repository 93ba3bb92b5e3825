(** Merging what was written and read again. *)
From Verif Require Import Base Types SpecBase BaseProofs CommentModel CommentClaims CommentLaws CommentTags MergeModel HeaderClaims PostClaims PostLaws RereadClaims.
Local Open Scope nat_scope.

Lemma ordinary_tags ho c : hash_order_ok ho → ordinary c → tags (from_opt_comment (into_opt_comment ho c)) = tags c.
Proof.
  intros Hho [Hs Hk]. apply set_eq. intros t. rewrite (reread_tags ho c t Hho Hs). split; [|by left]. intros [?|(k & v & Hkv & Hb & _)]; [done|].
  by destruct (Hk k v Hkv).
Qed.
Lemma reread_post ho p : hash_order_ok ho → ordinary (pi_comment p) → post_alike p (posting_internal_of (posting_of ho p)).
Proof.
  intros Hho Hc. unfold posting_internal_of, posting_of. destruct p as [[a r am b s co] c]. split_and!; [done..|]. cbn in *. by apply ordinary_tags.
Qed.
Lemma reread_same ho tps : hash_order_ok ho → (∀ tp p, tp ∈ tps → p ∈ tp_posts tp → ordinary (pi_comment p)) → Forall2 same_posts tps (reread ho tps).
Proof.
  intros Hho H. induction tps as [|tp tps IH]; [constructor|]. apply List.Forall2_cons.
  - assert (∀ p, p ∈ tp_posts tp → ordinary (pi_comment p)) as Hp by (intros p; apply H; left). clear -Hho Hp. split.
    + by destruct tp as [[[] ?] ?].
    + assert (tp_posts (transaction_postings_of (transaction_of_postings ho tp)) = posting_internal_of <$> (posting_of ho <$> tp_posts tp)) as ->
        by by destruct tp as [[[] ?] ?].
      induction (tp_posts tp) as [|p ps IH]; [constructor|]. rewrite !fmap_cons. apply List.Forall2_cons; [apply reread_post; [done|apply Hp; left]|].
      apply IH. intros q Hq. apply Hp. by right.
  - apply IH. intros tp' p Htp. apply H. by right.
Qed.
Lemma filed_alike m m' : filed m m' → made_alike m m'.
Proof. induction 1 as [|m m' ho ho' tps H IH Hho Ht]; [constructor|]. apply made_alike_merge; [done|]. by apply reread_same. Qed.
Lemma c116 m m' ho ho' tps : hash_order_ok ho' → filed m m' → (∀ tp p, tp ∈ tps → p ∈ tp_posts tp → ordinary (pi_comment p)) →
  result_alike (Forall2 same_posts) (merge ho m tps).2 (merge ho m' (reread ho' tps)).2 ∧
  result_alike (Forall2 same_posts) (build ho m) (build ho m').
Proof. intros Hho H%filed_alike Ht. apply c115; [done|]. by apply reread_same. Qed.
(** Comments read from text are ordinary, unless a line is a value tag with a blank key. *)
Lemma read_ordinary s : (∀ l k, l ∈ split_on newline s → value_line k l → trim k ≠ []) → ordinary (from_opt_comment (Some s)).
Proof.
  intros H. split; [apply from_opt_comment_shape|]. intros k v Hkv.
  destruct (proj1 (keys_exact s k)) as (l & Hl & Hk); [by eexists|]. by apply (H l).
Qed.
Lemma merge_ordinary c c' : ordinary c → ordinary c' → ordinary (merge_from c c').
Proof.
  intros [H1 K1] [H2 K2]. split.
  - split; cbn.
    + intros t [Ht|Ht]%elem_of_union; [by apply (ps_tags c)|by apply (ps_tags c')].
    + intros l [Hl|Hl]%merge_lines_elem; [by apply (ps_lines c)|by apply (ps_lines c')].
    + intros k v [Hk|[_ Hk]]%lookup_union_Some_raw; [by apply (ps_keys c' H2 k v)|by apply (ps_keys c H1 k v)].
    + intros k v [Hk|[_ Hk]]%lookup_union_Some_raw; [by apply (ps_values c' H2 k v)|by apply (ps_values c H1 k v)].
  - intros k v [Hk|[_ Hk]]%lookup_union_Some_raw; [by apply (K2 k v)|by apply (K1 k v)].
Qed.
