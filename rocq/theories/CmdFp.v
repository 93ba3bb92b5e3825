(** Proofs about fmt, generate-fingerprints, the import command and match sets. *)
From Verif Require Import Base Types CommentModel MergeModel CmdModel SpecBase BaseProofs StrProofs MergeSpec MergeClaims
  CommentClaims CommentProofs MergeProofs MergeLaws4 PropsMergeProofs CmdClaims CmdProofs CmdMerge CmdMerge2.
Local Open Scope nat_scope.

(** ** Rewriting journals in place *)
Fixpoint rewrite_cmd {S} (E : env) (conv : S → ledger → result (S * ledger)) (s : S) (js : list filespec) : io unit :=
  match js with
  | [] => io_ret tt
  | f :: js =>
      do! l := read_ledger E f in
      do! (s, l) := io_of (conv s l) in
      do! _ := write_ledger E f l in
      rewrite_cmd E conv s js
  end.
Definition fmt_conv (u : unit) (l : ledger) : result (unit * ledger) := Ok (u, l).
Definition fpgen_conv (ho : hash_order) (gen : nat → str) (n : nat) (l : ledger) : result (nat * ledger) :=
  let! tps := from_ledger l in
  let '(n, tps) := fpgen_trns ho gen n tps in
  Ok (n, into_ledger ho tps).

Lemma io_bind_ext {A B} (m : io A) (k k' : A → io B) w : (∀ a w, k a w = k' a w) → io_bind m k w = io_bind m k' w.
Proof. intros H. unfold io_bind. destruct (m w) as [es [a|e|]]; [|done|done]. by rewrite H. Qed.
Lemma fmt_rewrite E js w : fmt_cmd E js w = rewrite_cmd E fmt_conv tt js w.
Proof.
  revert w. induction js as [|f js IH]; intros w; [done|]. cbn [fmt_cmd rewrite_cmd]. apply io_bind_ext. intros l w1.
  unfold io_bind at 2. unfold io_of, fmt_conv. change (steps w1 []) with w1.
  rewrite (io_bind_ext _ _ (λ _, rewrite_cmd E fmt_conv tt js)) by (intros; apply IH).
  by destruct (io_bind _ _ _).
Qed.
Lemma fpgen_rewrite E ho gen n js w : fpgen_cmd E ho gen n js w = rewrite_cmd E (fpgen_conv ho gen) n js w.
Proof.
  revert n w. induction js as [|f js IH]; intros n w; [done|]. cbn [fpgen_cmd rewrite_cmd]. apply io_bind_ext. intros l w1.
  unfold io_bind at 1, io_of, fpgen_conv. destruct (from_ledger l) as [tps|e|]; [|done|done]. simpl.
  destruct (fpgen_trns ho gen n tps) as [n' tps'] eqn:Hg.
  unfold io_bind at 2.
  rewrite (io_bind_ext _ _ (λ _, rewrite_cmd E (fpgen_conv ho gen) n' js)) by (intros; apply IH).
  by destruct (io_bind _ _ _).
Qed.

(** The new text of a journal. *)
Definition new_text {S} (E : env) (conv : S → ledger → result (S * ledger)) (text text' : str) : Prop :=
  ∃ l s s' l', e_parse E text = Some l ∧ conv s l = Ok (s', l') ∧ text' = e_print E l'.

Lemma rewriting_refl new w w' js : untouched w w' → rewriting new w w' js.
Proof.
  intros (H & _ & _). exists [], js. split; [done|]. unfold same_file. rewrite H. split_and!; [|by left|done].
  intros p Hp%elem_of_nil. done.
Qed.
Lemma same_reads E w f l w1 p : reads E w f l w1 → same_file w w1 p.
Proof. by inversion 1. Qed.

Lemma rewriting_cons new w w1 w' f js :
  f ∉ js → (∀ p, f ≠ Path p → same_file w w1 p) →
  (∀ p, f = Path p → ∃ text text', w_files w !! p = Some text ∧ new text text' ∧ w_files w1 !! p = Some text') →
  rewriting new w1 w' js → rewriting new w w' (f :: js).
Proof.
  intros Hf Hs Hn (b & a & -> & H1 & H2 & H3). exists (f :: b), a. split; [done|].
  assert (Hfb : ∀ p, Path p ∈ b → f ≠ Path p).
  { intros p Hp ->. apply Hf, elem_of_app. by left. }
  assert (Hfa : ∀ p, head a = Some (Path p) → f ≠ Path p).
  { intros p Hp ->. destruct a; simplify_eq/=. apply Hf, elem_of_app. right. by left. }
  unfold same_file in *. split_and!.
  - intros p [<-|Hp]%elem_of_cons.
    + destruct (Hn p eq_refl) as (t & t' & Ht & Hnew & Ht'). exists t, t'. split_and!; [done..|]. rewrite H3; [done| |].
      * intros Hb. by apply (Hfb p).
      * intros Ha. by apply (Hfa p).
    + destruct (H1 p Hp) as (t & t' & Ht & ?). exists t, t'. rewrite <- (Hs p) by auto. done.
  - intros p Hp. rewrite <- (Hs p) by auto. by apply H2.
  - intros p [Hp Hpb]%not_elem_of_cons Ha. rewrite H3 by done. by apply Hs.
Qed.

Lemma reads_path_inv E w p l w1 : reads E w (Path p) l w1 → w1 = w ∧ ∃ text, w_files w !! p = Some text ∧ e_parse E text = Some l.
Proof. inversion 1; subst. eauto. Qed.

Lemma rewrite_crash {S} E (conv : S → ledger → result (S * ledger)) s js w es r w' :
  NoDup js → rewrite_cmd E conv s js w = (es, r) → crash_world w es w' →
  rewriting (new_text E conv) w w' js ∧ w_dirs w' = w_dirs w.
Proof.
  intros Hnd. revert s w es r w'. induction Hnd as [|f js Hf Hnd IH]; intros s w es r w' Hrun Hc.
  { simpl in Hrun. injection Hrun as <- <-. destruct Hc as (a & b & E' & ->). symmetry in E'. apply app_nil in E' as [-> ->].
    split; [|done]. by apply rewriting_refl. }
  cbn [rewrite_cmd] in Hrun. unfold io_bind in Hrun at 1.
  destruct (read_ledger_spec E f w) as (es1 & r1 & E1 & Hq & Hcase). rewrite E1 in Hrun.
  assert (Huq : ∀ w', crash_world w es1 w' → rewriting (new_text E conv) w w' (f :: js) ∧ w_dirs w' = w_dirs w).
  { intros w2 H2. pose proof (quiet_crash _ _ _ Hq H2) as Hu. split; [by apply rewriting_refl|apply Hu]. }
  destruct Hcase as [(l & -> & Hrd)|[[e ->] _]]; [|injection Hrun as <- <-; by apply Huq].
  unfold io_bind in Hrun at 1. unfold io_of in Hrun. destruct (conv s l) as [[s' l']|e|] eqn:Hconv;
    [|injection Hrun as <- <-; rewrite app_nil_r in Hc; by apply Huq..].
  change (steps (steps w es1) []) with (steps w es1) in Hrun. cbn beta iota in Hrun.
  unfold io_bind in Hrun. unfold write_ledger in Hrun.
  destruct (write_file_spec E f (e_print E l') (steps w es1)) as (es2 & r2 & E2 & Hok & Hcr). rewrite E2 in Hrun.
  pose proof (quiet_untouched w es1 Hq) as (Hf1 & Hd1 & Ho1).
  assert (Hw2 : ∀ w', crash_world (steps w es1) es2 w' → rewriting (new_text E conv) w w' (f :: js) ∧ w_dirs w' = w_dirs w).
  { intros w2 H2. destruct (Hcr w2 H2) as [->|(part & rest & Ht & ->)].
    - split; [|done]. by apply rewriting_refl.
    - split; [|by destruct f].
      exists [], (f :: js). split; [done|]. split_and!.
      + by intros p Hp%elem_of_nil.
      + intros p [= ->]. right. apply reads_path_inv in Hrd as (_ & text & Htx & Hp). exists text, part, rest.
        split_and!; [done| |].
        * rewrite <- Ht. by exists l, s, s', l'.
        * simpl. by rewrite lookup_insert.
      + intros p _ Hh. unfold same_file. rewrite <- Hf1. apply written_other. intros ->. by apply Hh. }
  destruct Hok as [[-> Hst]|[-> Hnw]].
  - change (steps (steps w es1) []) with (steps w es1) in Hrun.
    destruct (rewrite_cmd E conv s' js (steps (steps w es1) es2)) as [es3 r3] eqn:E3.
    injection Hrun as <- <-. apply crash_app in Hc as [Hc|Hc]; [by apply Huq|].
    apply crash_app in Hc as [Hc|Hc]; [by apply Hw2|].
    destruct (IH _ _ _ _ _ E3 Hc) as [HR HD]. split.
    + eapply rewriting_cons; [done| | |exact HR].
      * intros p Hp. unfold same_file. rewrite Hst, <- Hf1. by apply written_other.
      * intros p ->. apply reads_path_inv in Hrd as (_ & text & Htx & Hp). exists text, (e_print E l').
        split_and!; [done|by exists l, s, s', l'|]. rewrite Hst. simpl. by rewrite lookup_insert.
    + rewrite HD, Hst. by destruct f.
  - injection Hrun as <- <-. apply crash_app in Hc as [Hc|Hc]; [by apply Huq|by apply Hw2].
Qed.

Lemma rewritten_cons new w w1 w' f js :
  f ∉ js → (∀ p, f ≠ Path p → same_file w w1 p) →
  (∀ p, f = Path p → ∃ text text', w_files w !! p = Some text ∧ new text text' ∧ w_files w1 !! p = Some text') →
  rewritten new w1 w' js → rewritten new w w' (f :: js).
Proof.
  intros Hf Hs Hn (H1 & H2). unfold rewritten, same_file in *. split.
  - intros p [<-|Hp]%elem_of_cons.
    + destruct (Hn p eq_refl) as (t & t' & Ht & Hnew & Ht'). exists t, t'. split_and!; [done..|]. by rewrite H2.
    + destruct (H1 p Hp) as (t & t' & Ht & ?). exists t, t'. rewrite <- (Hs p); [done|]. by intros ->.
  - intros p [Hp Hpb]%not_elem_of_cons. rewrite H2 by done. by apply Hs.
Qed.
Lemma rewrite_done {S} E (conv : S → ledger → result (S * ledger)) s js w es :
  NoDup js → rewrite_cmd E conv s js w = (es, Ok tt) → rewritten (new_text E conv) w (steps w es) js.
Proof.
  intros Hnd. revert s w es. induction Hnd as [|f js Hf Hnd IH]; intros s w es Hrun.
  { simpl in Hrun. injection Hrun as <-. split; [by intros p Hp%elem_of_nil|done]. }
  cbn [rewrite_cmd] in Hrun. unfold io_bind in Hrun at 1.
  destruct (read_ledger_spec E f w) as (es1 & r1 & E1 & Hq & Hcase). rewrite E1 in Hrun.
  destruct Hcase as [(l & -> & Hrd)|[[e ->] _]]; [|done].
  unfold io_bind in Hrun at 1. unfold io_of in Hrun. destruct (conv s l) as [[s' l']|e|] eqn:Hconv; [|done..].
  change (steps (steps w es1) []) with (steps w es1) in Hrun. cbn beta iota in Hrun.
  unfold io_bind in Hrun. unfold write_ledger in Hrun.
  destruct (write_file_spec E f (e_print E l') (steps w es1)) as (es2 & r2 & E2 & Hok & Hcr). rewrite E2 in Hrun.
  pose proof (quiet_untouched w es1 Hq) as (Hf1 & Hd1 & Ho1).
  destruct Hok as [[-> Hst]|[-> Hnw]]; [|done].
  change (steps (steps w es1) []) with (steps w es1) in Hrun.
  destruct (rewrite_cmd E conv s' js (steps (steps w es1) es2)) as [es3 r3] eqn:E3.
  injection Hrun as <- ->. rewrite !steps_app.
  eapply rewritten_cons; [done| | |by eapply IH].
  - intros p Hp. unfold same_file. rewrite Hst, <- Hf1. by apply written_other.
  - intros p ->. apply reads_path_inv in Hrd as (_ & text & Htx & Hp). exists text, (e_print E l').
    split_and!; [done|by exists l, s, s', l'|]. rewrite Hst. simpl. by rewrite lookup_insert.
Qed.
(** When nothing is wrong with the files, a rewriting command succeeds. *)
Lemma rewrite_succeeds {S} E (conv : S → ledger → result (S * ledger)) s ps w :
  NoDup ps → (∀ p, p ∈ ps → ∃ text l, w_files w !! p = Some text ∧ e_parse E text = Some l ∧ ∀ s, ∃ s' l', conv s l = Ok (s', l')) →
  (∀ p, p ∈ ps → f_read E (Path p) = false ∧ writable E (Path p)) →
  ∃ es, rewrite_cmd E conv s (Path <$> ps) w = (es, Ok tt).
Proof.
  intros Hnd. revert s w. induction Hnd as [|p ps Hp Hnd IH]; intros s w Hread Hw; [by eexists|].
  rewrite fmap_cons. cbn [rewrite_cmd]. unfold io_bind at 1.
  destruct (Hread p ltac:(by left)) as (text & l & Ht & Hl & Hconv). destruct (Hw p ltac:(by left)) as [Hr Hwr].
  destruct (read_ledger_spec E (Path p) w) as (es1 & r1 & -> & Hq & [(l' & -> & Hrd)|[_ Hno]]).
  2: { destruct (Hno l w). by econstructor. }
  apply reads_path_inv in Hrd as (Heq & text' & Ht' & Hl'). rewrite Heq. assert (l' = l) as -> by congruence.
  unfold io_bind at 1. unfold io_of. destruct (Hconv s) as (s' & l' & ->). unfold io_bind, write_ledger.
  change (steps w []) with w.
  destruct (write_file_spec E (Path p) (e_print E l') w) as (es2 & r2 & -> & [[-> Hst]|[_ ?]] & _); [|done].
  destruct (IH s' (steps w es2)) as (es3 & E3).
  - intros q Hq'. destruct (Hread q ltac:(by right)) as (tq & lq & H1 & H2). exists tq, lq. rewrite Hst. simpl.
    rewrite lookup_insert_ne by (intros ->; done). done.
  - intros q Hq'. apply Hw. by right.
  - rewrite E3. by eexists.
Qed.

(** ** Fingerprint generation *)
Lemma fpgen_posting_spec ho gen n p used p' :
  hash_order_ok ho → fpgen_posting ho (gen n) p = (used, p') →
  fingerprint_added gen p p' ∧ (∃ f, has_fp p' f) ∧
  (∀ t, has_tag p' t ↔ has_tag p t ∨ (used = true ∧ t = s2l "fp-uuidb64-" ++ gen n)).
Proof.
  intros Hho H. unfold fpgen_posting in H.
  destruct (existsb is_fingerprint (ho_set ho (tags (pi_comment p)))) eqn:He; injection H as <- <-.
  - apply existsb_exists in He as (t & Ht & Hf). apply is_fingerprint_spec in Hf.
    assert (has_fp p t). { split; [done|]. unfold has_tag. apply elem_of_elements. destruct Hho as (Hs & _). rewrite <- (Hs _). by apply elem_of_list_In. }
    split_and!; [left; eauto|eauto|]. intros t'. split; [by left|by intros [?|[? _]]].
  - assert (Hno : ∀ f, ¬ has_fp p f).
    { intros f [Hf Ht]. apply is_fingerprint_spec in Hf. enough (existsb is_fingerprint (ho_set ho (tags (pi_comment p))) = true) by congruence.
      apply existsb_exists. exists f. split; [|done]. apply elem_of_list_In. destruct Hho as (Hs & _). rewrite (Hs _). by apply elem_of_elements. }
    set (p' := PI _ _).
    assert (Ht : ∀ t, has_tag p' t ↔ has_tag p t ∨ t = s2l "fp-uuidb64-" ++ gen n).
    { intros t. unfold has_tag, p', set_tags. simpl. rewrite elem_of_union, elem_of_singleton. tauto. }
    split_and!.
    + right. split_and!; [done..|]. by exists n.
    + exists (s2l "fp-uuidb64-" ++ gen n). split; [|apply Ht; by right]. exists (s2l "uuidb64-" ++ gen n). done.
    + intros t. rewrite Ht. naive_solver.
Qed.

Definition new_fp (gen : nat → str) (n : nat) : str := s2l "fp-uuidb64-" ++ gen n.
Lemma fpgen_postings_spec ho gen n ps n' ps' :
  hash_order_ok ho → fpgen_postings ho gen n ps = (n', ps') →
  n ≤ n' ∧ Forall2 (fingerprint_added gen) ps ps' ∧ Forall (λ p, ∃ f, has_fp p f) ps' ∧
  ∃ ks, length ks = length ps ∧
    (∀ i k, ks !! i = Some (Some k) → n ≤ k < n') ∧
    (∀ i j k, ks !! i = Some (Some k) → ks !! j = Some (Some k) → i = j) ∧
    ∀ i p p' o, ps !! i = Some p → ps' !! i = Some p' → ks !! i = Some o →
      ∀ t, has_tag p' t ↔ has_tag p t ∨ ∃ k, o = Some k ∧ t = new_fp gen k.
Proof.
  intros Hho. revert n n' ps'. induction ps as [|p ps IH]; intros n n' ps' H.
  { simpl in H. injection H as <- <-. split_and!; [lia|constructor|constructor|]. exists []. done. }
  cbn [fpgen_postings] in H. destruct (fpgen_posting ho (gen n) p) as [used q] eqn:Hp.
  destruct (fpgen_postings ho gen (if used then S n else n) ps) as [n2 qs] eqn:Hps. injection H as <- <-.
  destruct (fpgen_posting_spec ho gen n p used q Hho Hp) as (Ha & Hf & Ht).
  destruct (IH _ _ _ Hps) as (Hle & Ha' & Hf' & ks & Hlen & Hb & Hd & Htt).
  split_and!; [destruct used; lia|by constructor|by constructor|].
  exists ((if used then Some n else None) :: ks). split_and!.
  - simpl. by rewrite Hlen.
  - intros [|i] k Hk; simpl in Hk.
    + destruct used; simplify_eq. lia.
    + apply Hb in Hk. destruct used; lia.
  - intros [|i] [|j] k Hi Hj; simpl in *; [done| | |f_equal; by eapply Hd].
    + destruct used; simplify_eq. apply Hb in Hj. lia.
    + destruct used; simplify_eq. apply Hb in Hi. lia.
  - intros [|i] x x' o Hx Hx' Ho; simpl in *; simplify_eq.
    + intros t. rewrite Ht. unfold new_fp. destruct used; naive_solver.
    + by eapply Htt.
Qed.
Lemma fpgen_trns_posts ho gen n tps n' tps' :
  fpgen_trns ho gen n tps = (n', tps') → fpgen_postings ho gen n (all_posts tps) = (n', all_posts tps').
Proof.
  assert (Happ : ∀ ps qs n, fpgen_postings ho gen n (ps ++ qs) =
    let '(n1, ps') := fpgen_postings ho gen n ps in let '(n2, qs') := fpgen_postings ho gen n1 qs in (n2, ps' ++ qs')).
  { intros ps qs. induction ps as [|p ps IH]; intros k.
    - simpl. by destruct (fpgen_postings _ _ _ _).
    - cbn [fpgen_postings app]. destruct (fpgen_posting _ _ _) as [u q]. rewrite IH.
      destruct (fpgen_postings ho gen _ ps) as [n1 ps']. by destruct (fpgen_postings ho gen n1 qs). }
  revert n n' tps'. induction tps as [|tp tps IH]; intros n n' tps' H; cbn [fpgen_trns] in H.
  { injection H as <- <-. done. }
  unfold all_posts in *. rewrite bind_cons, Happ. destruct (fpgen_postings ho gen n (tp_posts tp)) as [n1 ps].
  destruct (fpgen_trns ho gen n1 tps) as [n2 ts] eqn:Ht. injection H as <- <-. by rewrite (IH _ _ _ Ht).
Qed.
Lemma fpgen_trns_added ho gen n tps n' tps' :
  hash_order_ok ho → fpgen_trns ho gen n tps = (n', tps') → fingerprints_added gen tps tps'.
Proof.
  intros Hho. revert n n' tps'. induction tps as [|tp tps IH]; intros n n' tps' H; cbn [fpgen_trns] in H.
  { injection H as <- <-. constructor. }
  destruct (fpgen_postings ho gen n (tp_posts tp)) as [n1 ps] eqn:Hp.
  destruct (fpgen_trns ho gen n1 tps) as [n2 ts] eqn:Ht. injection H as <- <-. constructor.
  - split; [done|]. simpl. eapply fpgen_postings_spec; [done|exact Hp].
  - by eapply IH.
Qed.
Lemma c60_all ho gen n tps n' tps' p :
  hash_order_ok ho → fpgen_trns ho gen n tps = (n', tps') → p ∈ all_posts tps' → ∃ f, has_fp p f.
Proof.
  intros Hho H%fpgen_trns_posts Hp. destruct (fpgen_postings_spec _ _ _ _ _ _ Hho H) as (_ & _ & Hf & _).
  rewrite Forall_forall in Hf. by apply Hf.
Qed.
Lemma c60_again ho gen n tps :
  hash_order_ok ho → (∀ p, p ∈ all_posts tps → ∃ f, has_fp p f) → fpgen_trns ho gen n tps = (n, tps).
Proof.
  intros Hho. induction tps as [|tp tps IH]; intros H; [done|]. cbn [fpgen_trns].
  assert (Hps : ∀ ps, (∀ p, p ∈ ps → ∃ f, has_fp p f) → fpgen_postings ho gen n ps = (n, ps)).
  { induction ps as [|p ps IHp]; intros Hp; [done|]. cbn [fpgen_postings].
    destruct (fpgen_posting ho (gen n) p) as [u q] eqn:Hpq. unfold fpgen_posting in Hpq.
    destruct (Hp p ltac:(by left)) as (f & Hf & Hft).
    assert (He : existsb is_fingerprint (ho_set ho (tags (pi_comment p))) = true).
    { apply existsb_exists. exists f. split; [|by apply is_fingerprint_spec]. apply elem_of_list_In.
      destruct Hho as (Hs & _). rewrite (Hs _). by apply elem_of_elements. }
    rewrite He in Hpq. injection Hpq as <- <-. rewrite IHp; [done|]. intros; apply Hp. by right. }
  unfold all_posts in *. rewrite Hps, IH; [by destruct tp|..]; intros p Hp; apply H; rewrite bind_cons; apply elem_of_app; auto.
Qed.
Lemma c60_distinct ho gen n tps n' tps' :
  hash_order_ok ho → fpgen_trns ho gen n tps = (n', tps') → fps_distinct (all_posts tps) →
  (* the generated ids are distinct, and in no fingerprint already there *)
  (∀ i k, n ≤ i < n' → n ≤ k < n' → gen i = gen k → i = k) →
  (∀ i p, n ≤ i < n' → p ∈ all_posts tps → ¬ has_tag p (s2l "fp-uuidb64-" ++ gen i)) →
  fps_distinct (all_posts tps').
Proof.
  intros Hho H%fpgen_trns_posts Hd Hinj Hfresh.
  destruct (fpgen_postings_spec _ _ _ _ _ _ Hho H) as (_ & H2 & _ & ks & Hlen & Hb & Hdk & Ht).
  intros i j p' q' Hi Hj (f & [Hf Hfp] & [_ Hfq]).
  destruct (Forall2_lookup_r _ _ _ _ _ H2 Hi) as (p & Hp & _).
  destruct (Forall2_lookup_r _ _ _ _ _ H2 Hj) as (q & Hq & _).
  destruct (lookup_lt_is_Some_2 ks i) as [oi Hoi]. { rewrite Hlen. by eapply lookup_lt_Some. }
  destruct (lookup_lt_is_Some_2 ks j) as [oj Hoj]. { rewrite Hlen. by eapply lookup_lt_Some. }
  apply (Ht i p p' oi Hp Hi Hoi) in Hfp. apply (Ht j q q' oj Hq Hj Hoj) in Hfq.
  destruct Hfp as [Hfp|(k & -> & ->)], Hfq as [Hfq|(k' & -> & E)].
  - eapply Hd; [done|done|]. by exists f.
  - subst. destruct (Hfresh k' p); [by eapply Hb|by eapply elem_of_list_lookup_2|done].
  - destruct (Hfresh k q); [by eapply Hb|by eapply elem_of_list_lookup_2|done].
  - apply app_inv_head in E. assert (k = k') as <-. { apply Hinj; [by eapply Hb..|done]. } by eapply Hdk.
Qed.
Lemma fpgen_candidates ho gen n tps n' tps' p' t :
  hash_order_ok ho → fpgen_trns ho gen n tps = (n', tps') →
  (∀ p t, p ∈ all_posts tps → has_tag p t → ¬ candidate_tag t) → p' ∈ all_posts tps' → has_tag p' t → ¬ candidate_tag t.
Proof.
  intros Hho H%fpgen_trns_posts Hc Hp' Htag.
  destruct (fpgen_postings_spec _ _ _ _ _ _ Hho H) as (_ & H2 & _ & ks & Hlen & _ & _ & Ht).
  apply elem_of_list_lookup in Hp' as [i Hi]. destruct (Forall2_lookup_r _ _ _ _ _ H2 Hi) as (p & Hp & _).
  destruct (lookup_lt_is_Some_2 ks i) as [oi Hoi]. { rewrite Hlen. by eapply lookup_lt_Some. }
  apply (Ht i p p' oi Hp Hi Hoi) in Htag as [Htag|(k & _ & ->)].
  - eapply Hc; [|done]. by eapply elem_of_list_lookup_2.
  - intros [s Hs]. done.
Qed.
Lemma c60_mergeable ho ho' gen n tps n' tps' :
  hash_order_ok ho → hash_order_ok ho' → fpgen_trns ho gen n tps = (n', tps') → fps_distinct (all_posts tps) →
  (∀ i k, n ≤ i < n' → n ≤ k < n' → gen i = gen k → i = k) →
  (∀ i p, n ≤ i < n' → p ∈ all_posts tps → ¬ has_tag p (s2l "fp-uuidb64-" ++ gen i)) →
  (∀ p t, p ∈ all_posts tps → has_tag p t → ¬ candidate_tag t) →
  ∃ m', merge ho' merger_new tps' = (m', Ok (filter (λ tp, tp_posts tp = []) tps')) ∧
        build ho' m' = Ok (stable_sort (by_key tp_date) (filter (λ tp, tp_posts tp ≠ []) tps')).
Proof.
  intros Hho Hho' H Hd Hi Hf Hc. apply from_empty; [done|done| |exact (c60_distinct _ _ _ _ _ _ Hho H Hd Hi Hf)].
  intros p Hp. split; [exact (c60_all _ _ _ _ _ _ _ Hho H Hp)|]. intros t Ht. exact (fpgen_candidates _ _ _ _ _ _ _ _ Hho H Hc Hp Ht).
Qed.

(** The commands. *)
Lemma fmt_new E text text' : new_text E fmt_conv text text' → formatted E text text'.
Proof. intros (l & s & s' & l' & Hp & [= <- <-] & ->). by exists l. Qed.
Lemma fpgen_new E ho gen text text' : hash_order_ok ho → new_text E (fpgen_conv ho gen) text text' → fingerprinted_text E ho gen text text'.
Proof.
  intros Hho (l & s & s' & l' & Hp & Hc & ->). unfold fpgen_conv in Hc.
  destruct (from_ledger l) as [tps|e|] eqn:Hl; [|done..]. simpl in Hc. apply from_ledger_iff in Hl as [Hs ->].
  destruct (fpgen_trns ho gen s _) as [n tps'] eqn:Hg. injection Hc as <- <-. exists l, tps'. split_and!; [done|done| |done].
  by eapply fpgen_trns_added.
Qed.
Lemma rewriting_impl (P Q : str → str → Prop) w w' js : (∀ a b, P a b → Q a b) → rewriting P w w' js → rewriting Q w w' js.
Proof.
  intros H (b & a & -> & H1 & H2 & H3). exists b, a. split_and!; [done| | |done].
  - intros p Hp. destruct (H1 p Hp) as (t & t' & ? & ? & ?). exists t, t'. auto.
  - intros p Hp. destruct (H2 p Hp) as [?|(t & x & y & ? & ? & ?)]; [by left|]. right. exists t, x, y. auto.
Qed.
Lemma rewritten_impl (P Q : str → str → Prop) w w' js : (∀ a b, P a b → Q a b) → rewritten P w w' js → rewritten Q w w' js.
Proof. intros H [H1 H2]. split; [|done]. intros p Hp. destruct (H1 p Hp) as (t & t' & ? & ? & ?). exists t, t'. auto. Qed.

Lemma c72_fmt E js w es r w' : NoDup js → fmt_cmd E js w = (es, r) → crash_world w es w' → rewriting (formatted E) w w' js.
Proof.
  rewrite fmt_rewrite. intros Hnd Hr Hc. destruct (rewrite_crash _ _ _ _ _ _ _ _ Hnd Hr Hc) as [H _].
  eapply rewriting_impl; [|exact H]. intros; by apply fmt_new.
Qed.
Lemma c72_fmt_done E js w es : NoDup js → fmt_cmd E js w = (es, Ok tt) → rewritten (formatted E) w (steps w es) js.
Proof.
  rewrite fmt_rewrite. intros Hnd Hr. eapply rewritten_impl; [|by eapply rewrite_done]. intros; by apply fmt_new.
Qed.
Lemma c72_fpgen E ho gen n js w es r w' :
  hash_order_ok ho → NoDup js → fpgen_cmd E ho gen n js w = (es, r) → crash_world w es w' →
  rewriting (fingerprinted_text E ho gen) w w' js.
Proof.
  rewrite fpgen_rewrite. intros Hho Hnd Hr Hc. destruct (rewrite_crash _ _ _ _ _ _ _ _ Hnd Hr Hc) as [H _].
  eapply rewriting_impl; [|exact H]. intros; by apply fpgen_new.
Qed.
Lemma c72_fpgen_done E ho gen n js w es :
  hash_order_ok ho → NoDup js → fpgen_cmd E ho gen n js w = (es, Ok tt) →
  rewritten (fingerprinted_text E ho gen) w (steps w es) js.
Proof.
  rewrite fpgen_rewrite. intros Hho Hnd Hr. eapply rewritten_impl; [|by eapply rewrite_done]. intros; by apply fpgen_new.
Qed.

(** C29 *)
Lemma crash_emptied E p text w es r : writable E (Path p) → write_file E (Path p) text w = (es, r) →
  ∃ w', crash_world w es w' ∧ w_files w' !! p = Some [].
Proof.
  intros [Hw Hc]. unfold write_file, io_bind, writer. rewrite Hc. unfold write_all. rewrite Hw. intros [= <- <-].
  exists (step w (EvCreate p)). split; [by exists [EvCreate p], (put (Path p) <$> text)|]. simpl. by rewrite lookup_insert.
Qed.
Lemma crash_app_l w a b w' : crash_world w a w' → crash_world w (a ++ b) w'.
Proof. intros (x & y & -> & ->). exists x, (y ++ b). by rewrite <- app_assoc. Qed.
Lemma crash_app_r w a b w' : crash_world (steps w a) b w' → crash_world w (a ++ b) w'.
Proof. intros (x & y & -> & ->). exists (a ++ x), y. by rewrite <- app_assoc, steps_app. Qed.
Lemma rewrite_emptied {S} E (conv : S → ledger → result (S * ledger)) s p w es r text l s' l' :
  f_read E (Path p) = false → w_files w !! p = Some text → e_parse E text = Some l → conv s l = Ok (s', l') →
  writable E (Path p) → rewrite_cmd E conv s [Path p] w = (es, r) →
  ∃ w', crash_world w es w' ∧ w_files w' !! p = Some [].
Proof.
  intros Hr Ht Hl Hconv Hw Hrun. cbn [rewrite_cmd] in Hrun. unfold io_bind in Hrun at 1.
  assert (Hrd : read_ledger E (Path p) w = ([], Ok l)).
  { unfold read_ledger, read_file, io_bind, io_of. rewrite Hr, Ht. by rewrite Hl. }
  rewrite Hrd in Hrun. change (steps w []) with w in Hrun.
  unfold io_bind in Hrun at 1. unfold io_of in Hrun. rewrite Hconv in Hrun. change (steps w []) with w in Hrun.
  cbn beta iota in Hrun. unfold io_bind, write_ledger in Hrun.
  destruct (write_file_spec E (Path p) (e_print E l') w) as (es2 & r2 & E2 & Hok & _).
  destruct (crash_emptied E p (e_print E l') w es2 r2 Hw E2) as (w' & Hc & He).
  exists w'. split; [|done]. rewrite E2 in Hrun.
  destruct r2 as [[]|e|]; injection Hrun as <- <-; [by apply crash_app_l|done|done].
Qed.

(** ** The import command *)
Lemma replace_skip pat sub k s : replace_from pat sub k s = replace_from pat sub 0 (drop k s).
Proof.
  revert k. induction s as [|c s IH]; intros [|k]; [done..|]. simpl drop. rewrite <- IH. done.
Qed.
Lemma replace_spec pat sub s : pat ≠ [] → replaced pat sub s (str_replace pat sub s).
Proof.
  intros Hpat. unfold str_replace. remember (length s) as n eqn:Hn. revert s Hn.
  induction (lt_wf n) as [n _ IH]. intros s ->. destruct s as [|c s].
  { simpl. constructor. intros i (x & y & E & _). symmetry in E. apply app_nil in E as [-> E]. by apply app_nil in E as [-> _]. }
  cbn [replace_from]. destruct (starts_with pat (c :: s)) eqn:Hs.
  - apply starts_with_spec in Hs as [b Hb]. rewrite replace_skip.
    assert (Hd : drop (length pat - 1) s = b).
    { destruct pat as [|x pat]; [done|]. injection Hb as <- ->. simpl. rewrite Nat.sub_0_r. by rewrite drop_app. }
    rewrite Hd, Hb. apply (replaced_first pat sub []); [intros; simpl; lia|]. eapply IH; [|done].
    rewrite Hb, app_length. destruct pat; [done|]. simpl. lia.
  - assert (Hno : ¬ occurs_at pat (c :: s) 0).
    { intros (x & y & E & Hx). apply nil_length_inv in Hx as ->. simpl in E.
      enough (starts_with pat (c :: s) = true) by congruence. apply starts_with_spec. eauto. }
    assert (Hshift : ∀ i, occurs_at pat (c :: s) (S i) → occurs_at pat s i).
    { intros i (x & y & E & Hx). destruct x as [|z x]; [done|]. injection E as <- ->. exists x, y. split; [done|]. simpl in Hx. lia. }
    specialize (IH (length s) ltac:(simpl; lia) s eq_refl).
    revert IH Hno Hshift. generalize (replace_from pat sub 0 s). clear. intros r IH Hno Hshift.
    destruct IH as [s Hn|a b b' Hle Hb].
    + apply replaced_none. intros [|i] Hi; [done|]. by eapply Hn, Hshift.
    + apply (replaced_first pat sub (c :: a)); [|done]. intros [|i] Hi; [done|].
      simpl. apply Hshift, Hle in Hi. lia.
Qed.
Lemma replaced_fun pat sub s : pat ≠ [] → ∀ a b, replaced pat sub s a → replaced pat sub s b → a = b.
Proof.
  intros Hpat a b H. revert b. induction H as [s Hn|x y y' Hle H IH]; intros b Hb.
  - inversion Hb as [|a' c c' Hle' Hc E]; [done|]. subst. destruct (Hn (length a')). by exists a', c.
  - inversion Hb as [s' Hn E|a' c c' Hle' Hc E]; subst.
    + destruct (Hn (length x)). by exists x, y.
    + assert (Hl : length x = length a').
      { apply Nat.le_antisymm; [apply Hle; rewrite <- E; by exists a', c|apply Hle'; rewrite E; by exists x, y]. }
      apply app_inj_1 in E as [-> E]; [|done]. apply app_inv_head in E as ->. f_equal. f_equal. by apply IH.
Qed.

Lemma only_reads_quiet es : only_reads es → quiet es.
Proof. done. Qed.
Lemma c67_failing E importer output sub make w es r w' es' r' :
  importer w = (es', r') → only_reads es' → (∀ i, r' ≠ Ok i) →
  import_cmd E importer output sub make w = (es, r) → crash_world w es w' → r ≠ Ok tt ∧ untouched w w'.
Proof.
  intros Hi Hq Hr Hrun Hc. unfold import_cmd in Hrun. unfold io_bind in Hrun at 1. rewrite Hi in Hrun.
  destruct r' as [i|e|]; [by destruct (Hr i)|..]; injection Hrun as <- <-; (split; [done|]); by eapply quiet_crash.
Qed.
Lemma c67_stdout E importer sub make w es r w' es' r' :
  importer w = (es', r') → only_reads es' → sub = true ∨ make = true →
  import_cmd E importer Stdio sub make w = (es, r) → crash_world w es w' → r ≠ Ok tt ∧ untouched w w'.
Proof.
  intros Hi Hq Hsm Hrun Hc. unfold import_cmd in Hrun. unfold io_bind in Hrun at 1. rewrite Hi in Hrun.
  destruct r' as [i|e|]; [|injection Hrun as <- <-; (split; [done|]); by eapply quiet_crash..].
  assert (r ≠ Ok tt ∧ es = es') as [? ->].
  { destruct sub; [|destruct make; [|by destruct Hsm]].
    - cbn in Hrun. injection Hrun as <- <-. by rewrite app_nil_r.
    - cbn in Hrun. injection Hrun as <- <-. by rewrite app_nil_r. }
  split; [done|]. by eapply quiet_crash.
Qed.
Lemma steps_mkdir w d : steps w [EvMkdir d] = World (w_files w) ({[d]} ∪ w_dirs w) (w_stdin w) (w_stdout w).
Proof. done. Qed.
Lemma c67_path E importer output sub make w es' i out :
  importer w = (es', Ok i) → only_reads es' →
  (* the path *)
  (sub = false → out = output) →
  (sub = true → ∃ p p', output = Path p ∧ out = Path p' ∧ replaced (s2l "%FP_NS%") (im_namespace i) p p') →
  (make = true → out ≠ Stdio) →
  ∃ es r, import_cmd E importer output sub make w = (es, r) ∧
    (r = Ok tt → holds w (steps w es) out (e_print E (ledger_from_transactions (im_transactions i))) ∧
                 (∀ p d, make = true → out = Path p → e_parent E p = Some d → d ∈ w_dirs (steps w es))) ∧
    (writable E out → (∀ p d, make = true → out = Path p → e_parent E p = Some d → f_mkdir E d = false) → r = Ok tt) ∧
    ∀ w', crash_world w es w' →
      (∀ p, out ≠ Path p → same_file w w' p) ∧
      (∀ p, out = Path p → same_file w w' p ∨ ∃ part rest,
         e_print E (ledger_from_transactions (im_transactions i)) = part ++ rest ∧ w_files w' !! p = Some part) ∧
      (make = false → w_dirs w' = w_dirs w).
Proof.
  intros Hi Hq H1 H2 H3. set (text := e_print E _).
  assert (Hos : output_spec output sub (im_namespace i) = Ok out).
  { unfold output_spec. destruct sub; simpl; [|by rewrite H1].
    destruct (H2 eq_refl) as (p & p' & -> & -> & Hr). f_equal. f_equal.
    eapply replaced_fun; [|by apply replace_spec|done]. done. }
  assert (Hmk : ∃ esm rm, make_parents E make out (steps w es') = (esm, rm) ∧
     (rm = Ok tt ∨ rm = Err EIo) ∧ (make = false → esm = []) ∧
     ((∀ p d, make = true → out = Path p → e_parent E p = Some d → f_mkdir E d = false) → rm = Ok tt) ∧
     (rm = Ok tt → ∀ p d, make = true → out = Path p → e_parent E p = Some d → esm = [EvMkdir d]) ∧
     (esm = [] ∨ ∃ d, esm = [EvMkdir d])).
  { unfold make_parents. destruct make; simpl; [|exists [], (Ok tt); naive_solver].
    destruct out as [|p]; [by destruct H3|]. destruct (e_parent E p) as [d|] eqn:Hd; [|exists [], (Ok tt); naive_solver].
    destruct (f_mkdir E d) eqn:Hf.
    - exists [], (Err EIo). split_and!; try done; [by right| |by left]. intros H. specialize (H p d eq_refl eq_refl Hd). congruence.
    - exists [EvMkdir d], (Ok tt). split_and!; try done; [by left| |by right; exists d]. intros _ p' d' _ [= <-] Hd'. congruence. }
  destruct Hmk as (esm & rm & Hm & Hrm & Hm0 & Hmok & Hmd & Hesm).
  assert (Hwm : w_files (steps w (es' ++ esm)) = w_files w ∧ w_stdout (steps w (es' ++ esm)) = w_stdout w ∧
                (make = false → w_dirs (steps w (es' ++ esm)) = w_dirs w)).
  { rewrite steps_app. destruct (quiet_untouched w es' Hq) as (Ha & Hb & Hc).
    destruct Hesm as [->|[d ->]]; simpl; [done|]. split_and!; [done..|]. intros Hmf. by specialize (Hm0 Hmf). }
  assert (Hcm : ∀ w', crash_world w (es' ++ esm) w' → w_files w' = w_files w ∧ (make = false → w_dirs w' = w_dirs w)).
  { intros w' [Hc|Hc]%crash_app.
    - destruct (quiet_crash _ _ _ Hq Hc) as (? & ? & ?). done.
    - destruct Hc as (a & b & E' & ->). destruct (quiet_untouched w es' Hq) as (Ha & Hb & Hc).
      destruct Hesm as [->|[d ->]]; [symmetry in E'; apply app_nil in E' as [-> ->]; done|].
      destruct a as [|e a]; [done|]. simpl in E'. injection E' as <- E'. symmetry in E'. apply app_nil in E' as [-> ->].
      simpl. split; [done|]. intros Hmf. by specialize (Hm0 Hmf). }
  destruct (write_file_spec E out text (steps w (es' ++ esm))) as (esw & rw & Hw & Hok & Hcr).
  exists (match rm with Ok _ => es' ++ esm ++ esw | _ => es' ++ esm end), (match rm with Ok _ => rw | _ => Err EIo end).
  split_and!.
  - unfold import_cmd. unfold io_bind at 1. rewrite Hi. unfold io_bind at 1. unfold io_of. rewrite Hos.
    change (steps ?x []) with x. unfold io_bind. rewrite Hm. unfold write_ledger. fold text.
    destruct Hrm as [-> | ->]; [|done]. rewrite <- steps_app, Hw. done.
  - intros Hr. destruct Hrm as [-> | ->]; [|done]. destruct Hok as [[-> Hst]|[-> _]]; [|done].
    rewrite app_assoc, steps_app, Hst. destruct Hwm as (Hwf & Hwo & Hwd). split.
    + destruct out; simpl; [by rewrite Hwo|]. by rewrite lookup_insert.
    + intros p d Hmake -> Hd. specialize (Hmd eq_refl p d Hmake eq_refl Hd) as ->. rewrite steps_app. simpl. set_solver.
  - intros Hwr Hmf. specialize (Hmok Hmf) as ->. destruct Hok as [[-> _]|[_ ?]]; [done|done].
  - intros w' Hc.
    assert (Hc' : crash_world w (es' ++ esm) w' ∨ crash_world (steps w (es' ++ esm)) esw w').
    { destruct Hrm as [-> | ->]; [|by left]. rewrite app_assoc in Hc. by apply crash_app in Hc. }
    destruct Hwm as (Hwf & Hwo & Hwd). destruct Hc' as [Hc'|Hc'].
    + destruct (Hcm _ Hc') as [Hx Hy]. unfold same_file. rewrite Hx. split_and!; [done|by left|done].
    + destruct (Hcr _ Hc') as [->|(part & rest & Ht & ->)].
      * unfold same_file. rewrite Hwf. split_and!; [done|by left|done].
      * unfold same_file. split_and!.
        -- intros p Hp. rewrite <- Hwf. by apply written_other.
        -- intros p ->. right. exists part, rest. split; [done|]. simpl. by rewrite lookup_insert.
        -- intros Hmf. destruct out; by apply Hwd.
Qed.

(** ** Match sets *)
Lemma first_seen_snoc {A} `{EqDecision A} (l d : list A) v :
  first_seen l d → first_seen (l ++ [v]) (if decide (v ∈ d) then d else d ++ [v]).
Proof.
  intros (Hnd & Hin & Hord).
  assert (Hpos : ∀ i j x y, d !! i = Some x → d !! j = Some y → i < j →
    ∃ n, (l ++ [v]) !! n = Some x ∧ ∀ k, (l ++ [v]) !! k = Some y → n < k).
  { intros i j x y Hi Hj Hij. destruct (Hord i j x y Hi Hj Hij) as (n & Hn & Hk). exists n.
    assert (n < length l) by (by eapply lookup_lt_Some). split; [by rewrite lookup_app_l|].
    intros k Hk'. apply lookup_app_Some in Hk' as [Hk'|[Hle _]]; [by apply Hk|lia]. }
  destruct (decide (v ∈ d)) as [Hv|Hv]; split_and!.
  - done.
  - intros x. rewrite elem_of_app, elem_of_list_singleton, <- Hin. naive_solver.
  - done.
  - apply NoDup_app. split_and!; [done| |apply NoDup_singleton]. intros x Hx ->%elem_of_list_singleton. done.
  - intros x. rewrite !elem_of_app, elem_of_list_singleton, <- Hin. done.
  - intros i j x y Hi Hj Hij. apply lookup_app_Some in Hj as [Hj|[Hle Hj]].
    + apply lookup_app_Some in Hi as [Hi|[Hle _]]; [by eapply Hpos|]. apply lookup_lt_Some in Hj. lia.
    + destruct (j - length d) eqn:Ej; simpl in Hj; simplify_eq.
      apply lookup_app_Some in Hi as [Hi|[Hle' _]]; [|lia].
      assert (Hxl : x ∈ l) by (by eapply Hin, elem_of_list_lookup_2). apply elem_of_list_lookup in Hxl as [n Hn].
      exists n. split; [by apply lookup_app_l_Some|]. intros k [Hk|[Hle2 Hk]]%lookup_app_Some.
      * destruct Hv. apply Hin. by eapply elem_of_list_lookup_2.
      * apply lookup_lt_Some in Hn. lia.
Qed.
Definition ms_wf {A} (m : matchset A) : Prop := match m with MMany l => 2 ≤ length l | _ => True end.
Lemma ms_insert_list {A} `{EqDecision A} (m : matchset A) v :
  ms_list (ms_insert m v) = if decide (v ∈ ms_list m) then ms_list m else ms_list m ++ [v].
Proof.
  destruct m as [|a|l].
  - destruct (decide (v ∈ ms_list MZero)) as [H|H]; [by apply elem_of_nil in H|done].
  - unfold ms_insert. destruct (decide (v ∈ ms_list (MOne a))) as [H|H], (decide (a = v)) as [E|E]; try done.
    + apply elem_of_list_singleton in H. by destruct E.
    + destruct H. subst. by left.
  - unfold ms_insert. change (ms_list (MMany l)) with l. by destruct (decide (v ∈ l)).
Qed.
Lemma ms_insert_wf {A} `{EqDecision A} (m : matchset A) v : ms_wf m → ms_wf (ms_insert m v).
Proof.
  destruct m as [|a|l]; simpl; intros H; [done| |].
  - destruct (decide (a = v)); simpl; [done|lia].
  - destruct (decide (v ∈ l)); simpl; [done|]. rewrite app_length. simpl. lia.
Qed.
Lemma c68 {A} `{EqDecision A} (l : list A) :
  let m := ms_collect l in
  first_seen l (ms_list m) ∧ ms_len m = length (ms_list m) ∧
  match m with MZero => length (ms_list m) = 0 | MOne _ => length (ms_list m) = 1 | MMany _ => 2 ≤ length (ms_list m) end.
Proof.
  cbv zeta. unfold ms_collect.
  assert (H : first_seen l (ms_list (foldl ms_insert MZero l)) ∧ ms_wf (foldl ms_insert MZero l)).
  { induction l as [|v l [IH1 IH2]] using rev_ind.
    - split; [|done]. split_and!; [constructor|done|]. intros i j x y Hi. done.
    - rewrite foldl_app. cbn [foldl]. rewrite ms_insert_list. split; [by apply first_seen_snoc|by apply ms_insert_wf]. }
  destruct H as [H1 H2]. split_and!; [done| |]; by destruct (foldl _ _ _).
Qed.
Lemma first_seen_fun {A} (l a b : list A) : first_seen l a → first_seen l b → a = b.
Proof.
  intros Ha Hb. apply list_eq. intros i.
  assert (Hlen : length a = length b).
  { apply Permutation_length. apply NoDup_Permutation; [apply Ha|apply Hb|]. intros x.
    destruct Ha as (_ & -> & _), Hb as (_ & -> & _). done. }
  revert i. assert (Hi : ∀ i x, a !! i = Some x → b !! i = Some x).
  { intros i. induction (lt_wf i) as [i _ IH]. intros x Hx.
    destruct Ha as (Hnda & Hina & Horda), Hb as (Hndb & Hinb & Hordb).
    assert (Hxb : x ∈ b) by (rewrite Hinb, <- Hina; by eapply elem_of_list_lookup_2).
    apply elem_of_list_lookup in Hxb as [j Hj].
    destruct (decide (j = i)) as [->|Hne]; [done|]. exfalso.
    destruct (decide (j < i)) as [Hlt|Hge].
    - destruct (lookup_lt_is_Some_2 a j) as [y Hy]. { apply lookup_lt_Some in Hx. lia. }
      pose proof (IH j Hlt y Hy) as Hyb. rewrite Hj in Hyb. injection Hyb as ->.
      pose proof (NoDup_lookup _ _ _ _ Hnda Hx Hy). lia.
    - (* b's i-th is some y, found in a after i *)
      destruct (lookup_lt_is_Some_2 b i) as [y Hy]. { apply lookup_lt_Some in Hx. lia. }
      assert (Hya : y ∈ a) by (rewrite Hina, <- Hinb; by eapply elem_of_list_lookup_2).
      apply elem_of_list_lookup in Hya as [k Hk].
      destruct (decide (k < i)) as [Hki|Hki].
      + pose proof (IH k Hki y Hk) as Hyb. pose proof (NoDup_lookup _ _ _ _ Hndb Hy Hyb). lia.
      + destruct (decide (k = i)) as [->|Hki'].
        * rewrite Hx in Hk. injection Hk as ->. pose proof (NoDup_lookup _ _ _ _ Hndb Hy Hj). lia.
        * destruct (Horda i k x y Hx Hk ltac:(lia)) as (n & Hn & Hnk).
          destruct (Hordb i j y x Hy Hj ltac:(lia)) as (n' & Hn' & Hnk').
          specialize (Hnk n' Hn'). specialize (Hnk' n Hn). lia. }
  intros i. destruct (a !! i) as [x|] eqn:Hx; [by rewrite (Hi i x Hx)|].
  symmetry. apply lookup_ge_None. apply lookup_ge_None in Hx. lia.
Qed.

(** ** As the properties need them *)
Lemma c29_fmt E p w es r text l :
  f_read E (Path p) = false → w_files w !! p = Some text → e_parse E text = Some l → writable E (Path p) →
  fmt_cmd E [Path p] w = (es, r) →
  ∃ w', crash_world w es w' ∧ w_files w' !! p = Some [].
Proof. intros H1 H2 H3 H4. rewrite fmt_rewrite. by apply (rewrite_emptied E fmt_conv tt p w es r text l tt l). Qed.
Lemma c29_fpgen E ho gen n p w es r text l :
  f_read E (Path p) = false → w_files w !! p = Some text → e_parse E text = Some l → supported l → writable E (Path p) →
  fpgen_cmd E ho gen n [Path p] w = (es, r) →
  ∃ w', crash_world w es w' ∧ w_files w' !! p = Some [].
Proof.
  intros H1 H2 H3 Hs H4. rewrite fpgen_rewrite.
  destruct (fpgen_trns ho gen n (transaction_postings_of <$> ledger_trns l)) as [n' tps'] eqn:Hg.
  apply (rewrite_emptied E (fpgen_conv ho gen) n p w es r text l n' (into_ledger ho tps')); [done..| |done].
  unfold fpgen_conv. rewrite from_ledger_ok by done. simpl. by rewrite Hg.
Qed.
Lemma c72_fmt_succeeds E ps w :
  NoDup ps → (∀ p, p ∈ ps → ∃ text l, w_files w !! p = Some text ∧ e_parse E text = Some l) →
  (∀ p, p ∈ ps → f_read E (Path p) = false ∧ writable E (Path p)) →
  ∃ es, fmt_cmd E (Path <$> ps) w = (es, Ok tt).
Proof.
  intros Hnd H1 H2. rewrite fmt_rewrite. apply rewrite_succeeds; [done| |done]. intros p Hp.
  destruct (H1 p Hp) as (text & l & ? & ?). exists text, l. split_and!; [done..|]. intros s. by exists s, l.
Qed.
Lemma c72_fpgen_succeeds E ho gen n ps w :
  NoDup ps → (∀ p, p ∈ ps → ∃ text l, w_files w !! p = Some text ∧ e_parse E text = Some l ∧ supported l) →
  (∀ p, p ∈ ps → f_read E (Path p) = false ∧ writable E (Path p)) →
  ∃ es, fpgen_cmd E ho gen n (Path <$> ps) w = (es, Ok tt).
Proof.
  intros Hnd H1 H2. rewrite fpgen_rewrite. apply rewrite_succeeds; [done| |done]. intros p Hp.
  destruct (H1 p Hp) as (text & l & ? & ? & Hs). exists text, l. split_and!; [done..|]. intros s.
  unfold fpgen_conv. rewrite from_ledger_ok by done. simpl.
  destruct (fpgen_trns ho gen s _) as [n' tps']. by eexists _, _.
Qed.
Lemma c60_added ho gen n tps n' tps' :
  hash_order_ok ho → fpgen_trns ho gen n tps = (n', tps') →
  fingerprints_added gen tps tps' ∧ ∀ p, p ∈ all_posts tps' → ∃ f, has_fp p f.
Proof.
  intros Hho H. split; [by eapply fpgen_trns_added|]. intros p Hp. exact (c60_all _ _ _ _ _ _ _ Hho H Hp).
Qed.
Lemma c60_twice ho ho' gen gen' n n2 tps n' tps' :
  hash_order_ok ho → hash_order_ok ho' → fpgen_trns ho gen n tps = (n', tps') →
  fpgen_trns ho' gen' n2 tps' = (n2, tps').
Proof. intros Hho Hho' H. apply c60_again; [done|]. intros p Hp. exact (c60_all _ _ _ _ _ _ _ Hho H Hp). Qed.
Lemma c67_replaced pat sub s : pat ≠ [] →
  replaced pat sub s (str_replace pat sub s) ∧ ∀ s', replaced pat sub s s' → s' = str_replace pat sub s.
Proof.
  intros Hp. split; [by apply replace_spec|]. intros s' Hs'. eapply replaced_fun; [done|done|by apply replace_spec].
Qed.

(** generate-fingerprints on several journals (C60). *)
Lemma fpgen_trns_app ho gen n a b : fpgen_trns ho gen n (a ++ b) =
  let '(n1, a') := fpgen_trns ho gen n a in let '(n2, b') := fpgen_trns ho gen n1 b in (n2, a' ++ b').
Proof.
  revert n. induction a as [|tp a IH]; intros n; cbn [fpgen_trns app]; [by destruct (fpgen_trns ho gen n b)|].
  destruct (fpgen_postings ho gen n (tp_posts tp)) as [n0 ps]. rewrite IH. destruct (fpgen_trns ho gen n0 a) as [n1 a'].
  by destruct (fpgen_trns ho gen n1 b).
Qed.
Lemma fpgen_cmd_files E ho gen ps : NoDup ps → ∀ n w es, fpgen_cmd E ho gen n (Path <$> ps) w = (es, Ok tt) →
  ∃ (ls ls' : list (list transaction_postings)) n',
    Forall2 (λ p tps, ∃ text l, w_files w !! p = Some text ∧ e_parse E text = Some l ∧ supported l ∧
               tps = transaction_postings_of <$> ledger_trns l) ps ls ∧
    Forall2 (λ p tps', w_files (steps w es) !! p = Some (e_print E (into_ledger ho tps'))) ps ls' ∧
    Forall2 (λ tps tps', ∃ k k', fpgen_trns ho gen k tps = (k', tps')) ls ls' ∧
    fpgen_trns ho gen n (mjoin ls) = (n', mjoin ls') ∧ (∀ p, p ∉ ps → same_file w (steps w es) p).
Proof.
  induction 1 as [|p ps Hp Hnd IH]; intros n w es Hrun.
  { simpl in Hrun. injection Hrun as <-. exists [], [], n. split_and!; [constructor..|done|done]. }
  rewrite fmap_cons in Hrun. cbn [fpgen_cmd] in Hrun. unfold io_bind in Hrun at 1.
  destruct (read_ledger_spec E (Path p) w) as (es1 & r1 & E1 & Hq & Hcase). rewrite E1 in Hrun.
  destruct Hcase as [(l & -> & Hrd)|[[e ->] _]]; [|done].
  apply reads_path_inv in Hrd as (Hw1 & text & Htx & Hpl). rewrite Hw1 in Hrun.
  unfold io_bind in Hrun at 1. unfold io_of in Hrun. destruct (from_ledger l) as [tps|e|] eqn:Hl; [|done..].
  change (steps w []) with w in Hrun. cbn beta iota in Hrun. apply from_ledger_iff in Hl as [Hs Etps].
  destruct (fpgen_trns ho gen n tps) as [n1 tps'] eqn:Hg.
  unfold io_bind in Hrun. unfold write_ledger in Hrun.
  destruct (write_file_spec E (Path p) (e_print E (into_ledger ho tps')) w) as (es2 & r2 & E2 & Hok & Hcr). rewrite E2 in Hrun.
  destruct Hok as [[-> Hst]|[-> Hnw]]; [|done].
  destruct (fpgen_cmd E ho gen n1 (Path <$> ps) (steps w es2)) as [es3 r3] eqn:E3.
  injection Hrun as <- ->. destruct (IH _ _ _ E3) as (ls & ls' & n' & H1 & H2 & H3 & H4 & H5).
  assert (∀ q, q ≠ p → w_files (steps w es2) !! q = w_files w !! q) as Hother.
  { intros q Hqp. rewrite Hst. simpl. by rewrite lookup_insert_ne. }
  rewrite !steps_app. rewrite Hw1.
  exists (tps :: ls), (tps' :: ls'), n'. split_and!.
  - constructor; [by exists text, l|]. clear -H1 Hother Hp. induction H1 as [|q x qs xs Hx H1 IH]; constructor.
    + destruct Hx as (t & l & Ht & ?). exists t, l. split; [|done]. rewrite <- Ht. symmetry. apply Hother. intros ->. apply Hp. left.
    + apply IH. intros ?. apply Hp. by right.
  - constructor; [|done]. unfold same_file in H5. rewrite H5 by done. rewrite Hst. simpl. by rewrite lookup_insert.
  - constructor; [eauto|done].
  - cbn [mjoin list_join]. change (fpgen_trns ho gen n (tps ++ mjoin ls) = (n', tps' ++ mjoin ls')).
    rewrite fpgen_trns_app, Hg, H4. done.
  - intros q [Hqp Hq']%not_elem_of_cons. unfold same_file in *. rewrite H5 by done. by apply Hother.
Qed.
Lemma c60_command E ho gen n ps w es : hash_order_ok ho → NoDup ps → fpgen_cmd E ho gen n (Path <$> ps) w = (es, Ok tt) →
  ∃ (ls ls' : list (list transaction_postings)),
    Forall2 (λ p tps, ∃ text l, w_files w !! p = Some text ∧ e_parse E text = Some l ∧ supported l ∧
               tps = transaction_postings_of <$> ledger_trns l) ps ls ∧
    Forall2 (λ p tps', w_files (steps w es) !! p = Some (e_print E (into_ledger ho tps'))) ps ls' ∧
    Forall2 (fingerprints_added gen) ls ls' ∧
    (∀ p, p ∈ all_posts (mjoin ls') → ∃ f, has_fp p f) ∧
    ((∀ i k, gen i = gen k → i = k) → (∀ i p, p ∈ all_posts (mjoin ls) → ¬ has_tag p (s2l "fp-uuidb64-" ++ gen i)) →
     fps_distinct (all_posts (mjoin ls)) → fps_distinct (all_posts (mjoin ls'))).
Proof.
  intros Hho Hnd Hrun. destruct (fpgen_cmd_files E ho gen ps Hnd n w es Hrun) as (ls & ls' & n' & H1 & H2 & H3 & H4 & _).
  exists ls, ls'. split_and!; [done|done| | |].
  - eapply Forall2_impl; [exact H3|]. intros tps tps' (k & k' & Hk). by eapply fpgen_trns_added.
  - intros p. by eapply c60_all.
  - intros Hi Hf Hd. eapply c60_distinct; [done|exact H4|done| |]; auto.
Qed.
