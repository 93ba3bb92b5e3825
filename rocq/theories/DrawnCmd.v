(** Proofs for C152: generate-fingerprints and then the merge command. *)
From stdpp Require Import gmap list.
From Verif Require Import MergeClaims.
From Verif Require Import Base Types CommentModel MergeModel CmdModel SpecBase BaseProofs MergeSpec MergeClaims
  MergeProofs MergeLemmas PropsMergeProofs CommentClaims CmdClaims CmdProofs CmdMerge CmdMerge2 CmdIdem CmdFp HeaderClaims HeaderLaws CmdPlain ReRun
  HandClaims Hand RenameClaims RetagClaims Retag RetagCmd DrawnClaims Drawn.
From Coq Require Import Lia.
Local Open Scope nat_scope.

Lemma fpgen_journals E ho gen n hand others rest wd wd0 es text l : hash_order_ok ho →
  (∀ i c, c ∈ gen i → c ≠ colon ∧ c ≠ CommentClaims.space ∧ c ≠ newline) →
  w_files wd !! hand = Some text → e_parse E text = Some l →
  (∀ tp, tp ∈ transaction_postings_of <$> ledger_trns l → comments_writable tp ∧ source_tag tp = None) →
  journals E wd (Path <$> others) rest wd0 → hand ∉ others →
  (∀ tps', fingerprints_added gen (transaction_postings_of <$> ledger_trns l) tps' →
     w_files (steps wd es) !! hand = Some (e_print E (into_ledger ho tps')) →
     e_parse E (e_print E (into_ledger ho tps')) = Some (into_ledger ho tps')) →
  fpgen_cmd E ho gen n [Path hand] wd = (es, Ok tt) → f_read E (Path hand) = false →
  ∃ n' J1, fpgen_trns ho gen n (transaction_postings_of <$> ledger_trns l) = (n', J1) ∧
    journals E (steps wd es) (Path <$> hand :: others) (J1 :: rest) (steps wd es).
Proof.
  intros Hho Hid Hf Hp Hcs Hj Hne Hpp Hrun Hfr.
  destruct (fpgen_cmd_files E ho gen [hand] (NoDup_singleton hand) n wd es Hrun) as (ls & ls' & n' & F1 & F2 & F3 & F4 & F5).
  inversion F1 as [|? tps ? lsr Hx Hy]; subst. inversion Hy; subst. clear Hy.
  inversion F2 as [|? tps' ? lsr' Hx' Hy']; subst. inversion Hy'; subst. clear Hy'.
  destruct Hx as (text' & l' & G1 & G2 & G3 & ->). assert (text' = text) as -> by congruence. assert (l' = l) as -> by congruence.
  cbn [mjoin list_join] in F4. rewrite !app_nil_r in F4.
  destruct (c60_added ho gen n _ n' tps' Hho F4) as [Hadd _].
  assert (Hclean : Forall clean_tp tps').
  { eapply added_clean; [exact Hadd|]. apply Forall_fmap, Forall_forall. intros t _. apply clean_of. }
  assert (Hcw : ∀ tp, tp ∈ tps' → comments_writable tp ∧ source_tag tp = None).
  { intros tp (a & Htp)%elem_of_list_lookup. destruct (Forall2_lookup_r _ _ _ _ _ Hadd Htp) as (tp0 & H0 & H1 & H2).
    apply elem_of_list_lookup_2 in H0. destruct (Hcs tp0 H0) as [[C1 C2] C3]. unfold source_tag, comments_writable. rewrite H1. split; [split; [done|]|done].
    intros p (b & Hb)%elem_of_list_lookup. destruct (Forall2_lookup_r _ _ _ _ _ H2 Hb) as (p0 & Hp0 & Ha).
    eapply added_representable; [done|exact Ha|]. apply C2. by eapply elem_of_list_lookup_2. }
  pose proof (from_into_ledger ho tps' Hho Hclean (λ tp H, proj1 (Hcw tp H))) as HL.
  exists n', tps'. split; [done|]. rewrite <- HL at 1. rewrite fmap_cons. eapply journals_cons.
  - eapply reads_path; [done|exact Hx'|by apply Hpp].
  - apply ledger_supported.
  - intros t Ht. apply Hcw. rewrite <- HL. by apply elem_of_list_fmap_1.
  - apply (journals_paths E wd _ others _ wd0); [exact Hj|]. intros q Hq. apply F5. rewrite elem_of_list_singleton. by intros ->.
Qed.

Lemma c152_command E ho ho' gen gen' n hand others rest wd wd0 es es' text l ho2 ho2' um um' output output' es2 es2' r r' :
  hash_order_ok ho → hash_order_ok ho' → hash_order_ok ho2 → hash_order_ok ho2' →
  (∀ g, g = gen ∨ g = gen' →
     (∀ i k, g i = g k → i = k) ∧ (∀ i c, c ∈ g i → c ≠ colon ∧ c ≠ CommentClaims.space ∧ c ≠ newline) ∧
     ∀ i p, p ∈ all_posts (transaction_postings_of <$> ledger_trns l) ++ all_posts (mjoin rest) → ¬ has_tag p (id_fingerprint (g i))) →
  w_files wd !! hand = Some text → e_parse E text = Some l →
  (∀ tp, tp ∈ transaction_postings_of <$> ledger_trns l → comments_writable tp ∧ source_tag tp = None) →
  journals E wd (Path <$> others) rest wd0 → hand ∉ others → f_read E (Path hand) = false →
  (∀ tps', fingerprints_added gen (transaction_postings_of <$> ledger_trns l) tps' →
     w_files (steps wd es) !! hand = Some (e_print E (into_ledger ho tps')) →
     e_parse E (e_print E (into_ledger ho tps')) = Some (into_ledger ho tps')) →
  (∀ tps', fingerprints_added gen' (transaction_postings_of <$> ledger_trns l) tps' →
     w_files (steps wd es') !! hand = Some (e_print E (into_ledger ho' tps')) →
     e_parse E (e_print E (into_ledger ho' tps')) = Some (into_ledger ho' tps')) →
  fpgen_cmd E ho gen n [Path hand] wd = (es, Ok tt) → fpgen_cmd E ho' gen' n [Path hand] wd = (es', Ok tt) →
  (is_Some um ↔ is_Some um') → um ≠ Some Stdio → um' ≠ Some Stdio → um ≠ Some output → um' ≠ Some output' →
  (∀ f, um = Some f → writable E f) → (∀ f, um' = Some f → writable E f) → writable E output → writable E output' →
  let w := steps wd es in let w' := steps wd es' in
  merge_cmd E ho2 (Path <$> hand :: others) um output w = (es2, r) → merge_cmd E ho2' (Path <$> hand :: others) um' output' w' = (es2', r') →
  (r = Ok tt ↔ r' = Ok tt) ∧
  ∃ n' f, exchanges gen gen' n n' f ∧
  (r = Ok tt → ∃ out un un2 back back2,
     holds w (steps w es2) output (e_print E (into_ledger ho2 out)) ∧
     holds w' (steps w' es2') output' (e_print E (into_ledger ho2 (retag f <$> out))) ∧
     Forall2 (λ u u', equal_but_candidates (retag f u) u') un un2 ∧ Forall2 unsourced back un ∧ Forall2 unsourced back2 un2 ∧
     (un ≠ [] → ∃ g g2, um = Some g ∧ um' = Some g2 ∧
        holds w (steps w es2) g (e_print E (into_ledger ho2 back)) ∧
        holds w' (steps w' es2') g2 (e_print E (into_ledger ho2 back2)))).
Proof.
  intros Hho Hho' Hho2 Hho2' Hg Hf Hp Hcs Hj Hne Hfr Hpp Hpp' Hrun Hrun' Hum Hs Hs' Ho Ho' Hw Hw' Hwo Hwo' w w' Hm Hm'.
  destruct (Hg gen) as (Hi & Hc & Hfree); [by left|]. destruct (Hg gen') as (Hi' & Hc' & Hfree'); [by right|].
  destruct (fpgen_journals E ho gen n hand others rest wd wd0 es text l) as (n' & J1 & E1 & Hj1); try done.
  destruct (fpgen_journals E ho' gen' n hand others rest wd wd0 es' text l) as (n2 & J2 & E2 & Hj2); try done.
  set (J := transaction_postings_of <$> ledger_trns l) in *.
  assert (different_ids gen n n') as Hd by (intros ? ? _ _; apply Hi). assert (different_ids gen' n n') as Hd' by (intros ? ? _ _; apply Hi').
  assert (free_of gen n n' J) as HJ. { intros p t Hpp1 Ht (i & _ & ->). apply (Hfree i p); [|done]. apply elem_of_app. by left. }
  assert (free_of gen' n n' J) as HJ'. { intros p t Hpp1 Ht (i & _ & ->). apply (Hfree' i p); [|done]. apply elem_of_app. by left. }
  assert (∀ s tp p, s ∈ rest → tp ∈ s → p ∈ tp_posts tp → p ∈ all_posts J ++ all_posts (mjoin rest)) as Hin.
  { intros s tp p Hs0 Htp Hpp1. apply elem_of_app. right. apply elem_of_list_bind. exists tp. split; [done|]. apply elem_of_list_join. eauto. }
  destruct (fpgen_trns_exch gen gen' n n' Hd ho ho' n J n' J1) as [E3 Hk]; [done..|]. rewrite E2 in E3. injection E3 as -> ->.
  set (f := exch gen gen' n n') in *.
  assert (retag_inputs f (J1 :: rest) = (retag f <$> J1) :: rest) as ER.
  { unfold retag_inputs. rewrite fmap_cons. f_equal. rewrite <- (list_fmap_id rest) at 2. apply list_fmap_ext. intros i s Hs0. apply exch_same.
    intros p t (tp & Hp1 & Htp)%elem_of_list_bind Ht (k & _ & ->). apply (Hfree k p); [|done]. eapply Hin; [by eapply elem_of_list_lookup_2|done..]. }
  assert (only_fps (kept_fp gen gen' n n') (mjoin (J1 :: rest))) as Hon.
  { intros tp p t Htp Hp1 Ht. change (mjoin (J1 :: rest)) with (J1 ++ mjoin rest) in Htp. apply elem_of_app in Htp as [Htp|Htp]; [by eapply Hk|].
    apply elem_of_list_join in Htp as (s & Hs0 & Htp). right. intros (k & _ & ->). destruct Ht as [_ Ht]. apply (Hfree' k p); [|done]. by eapply Hin. }
  rewrite <- ER in Hj2.
  destruct (c144_command (kept_fp gen gen' n n') f (exch_kinds gen gen' n n' Hd) (exch_apart gen gen' n n' Hd Hd') E ho2 ho2' _ _ um um' output output' w w'
    _ _ _ es2 es2' r r' Hho2 Hho2' Hon Hj1 Hj2 Hum Hs Hs' Ho Ho' Hw Hw' Hwo Hwo' Hm Hm') as [C1 C2].
  split; [done|]. exists n', f. split; [by apply exch_exchanges|]. exact C2.
Qed.
