(** The command that applies rules. *)
From stdpp Require Import gmap list relations.
From Verif Require Import Base Types CommentModel MergeModel CmdModel SpecBase BaseProofs MergeProofs CmdClaims CmdProofs CmdMerge RulesModel RulesClaims RulesProofs RulesLaws RulesLoad.
Local Open Scope nat_scope.

Lemma load_from_path_ok F ho n p T : hash_order_ok ho → one_file F →
  load_from_path F ho n p = Some (Ok T) → rules_loaded F p T.
Proof.
  intros Hho Hone. unfold load_from_path.
  intros [(T' & E & H)|[(e & _ & [=])|[_ [=]]]]%run_bind_some.
  apply run_bind_some in H as [([] & E' & [= ->])|[(e & _ & [=])|[_ [=]]]]. injection E' as E'.
  apply (c59_sound F n p T Hone) in E as (H1 & H2 & H3). apply validate_spec in E'; [|done]. done.
Qed.
Lemma loaded_checked F ho n p T : hash_order_ok ho → load_from_path F ho n p = Some (Ok T) → start_and_jumps T.
Proof.
  intros Hho. unfold load_from_path.
  intros [(T' & E & H)|[(e & _ & [=])|[_ [=]]]]%run_bind_some.
  apply run_bind_some in H as [([] & E' & [= ->])|[(e & _ & [=])|[_ [=]]]]. injection E' as E'. by apply validate_spec in E'.
Qed.
Lemma load_from_path_complete F ho paths n p T : hash_order_ok ho → one_file F → all_paths F paths → length paths < n →
  rules_loaded F p T → load_from_path F ho n p = Some (Ok T).
Proof.
  intros Hho Hone Hp Hn (H1 & H2 & H3 & H4). unfold load_from_path.
  rewrite (proj2 (c59 F paths n p T Hone Hp Hn)) by done. cbn [run_bind].
  apply (validate_spec ho) in H4; [|done]. by rewrite H4.
Qed.
Lemma rules_loaded_fun F p T T' : rules_loaded F p T → rules_loaded F p T' → T = T'.
Proof.
  intros (_ & _ & H & _) (_ & _ & H' & _). apply map_eq. intros m. apply option_eq. intros rs. by rewrite (H m rs), (H' m rs).
Qed.
Lemma journal_read_fun E w f a b : journal_read E w f a → journal_read E w f b → a = b.
Proof.
  intros (l & w1 & H1 & _ & ->) (l' & w1' & H2 & _ & ->). by destruct (reads_fun _ _ _ _ _ _ _ H1 H2) as [-> _].
Qed.
Lemma posts_end_fun X T t ps t1 ps1 t2 ps2 : posts_end X T t ps t1 ps1 → posts_end X T t ps t2 ps2 → t1 = t2 ∧ ps1 = ps2.
Proof.
  intros H. revert t2 ps2. induction H as [t|t p ps t1 p1 t1' ps1 H1 H2 IH]; intros t2 ps2 H'; inversion H'; subst; [done|].
  pose proof (c54_det _ _ _ _ _ _ H1 ltac:(eassumption)) as Heq. simplify_eq.
  destruct (IH _ _ ltac:(eassumption)). by subst.
Qed.

Lemma rules_cmd_spec E X F ho n rules input output w :
  ∃ es r, rules_cmd E X F ho n rules input output w = (es, r) ∧
  ((quiet es ∧ r ≠ Ok (Some tt) ∧
     ∀ T tps out, load_from_path F ho n rules = Some (Ok T) → journal_read E w input tps →
       update_transactions X ho T n tps ≠ Some (Ok out)) ∨
   ∃ T tps out es1 es2 r2, load_from_path F ho n rules = Some (Ok T) ∧ journal_read E w input tps ∧
     update_transactions X ho T n tps = Some (Ok out) ∧ quiet es1 ∧ es = es1 ++ es2 ∧
     write_ledger E output (into_ledger ho out) (steps w es1) = (es2, r2) ∧ (r2 = Ok tt ↔ r = Ok (Some tt))).
Proof.
  unfold rules_cmd, io_run at 1. destruct (load_from_path F ho n rules) as [[T|e|]|].
  2-4: (eexists _, _; split; [done|]; left; split_and!; [constructor|done|done]).
  unfold io_bind at 1, io_of at 1.
  destruct (read_ledger_spec E input w) as (es1 & r1 & Er & Hq1 & Hcase).
  unfold io_bind at 1. cbn [steps foldl app]. rewrite Er.
  destruct Hcase as [(l & -> & Hr)|[[e ->] Hn]].
  2: { eexists _, _; split; [done|]. left. split_and!; [done|done|]. intros ? ? ? _ (l & w' & H & _). by destruct (Hn l w'). }
  unfold io_bind at 1, io_of at 1. destruct (from_ledger l) as [tps|e|] eqn:El.
  2-3: (eexists _, _; split; [done|]; left; split_and!; [by rewrite app_nil_r|done|];
        intros ? ? ? _ (l' & w' & H & Hs & _); destruct (reads_fun _ _ _ _ _ _ _ Hr H) as [-> _];
        apply from_ledger_ok in Hs; congruence).
  apply from_ledger_iff in El as [Hs ->]. set (tps := transaction_postings_of <$> ledger_trns l).
  assert (journal_read E w input tps) as Hj by (by exists l, (steps w es1)).
  unfold io_run. destruct (update_transactions X ho T n tps) as [[out|e|]|] eqn:Eu.
  2-4: (eexists _, _; split; [done|]; left; split_and!; [by rewrite !app_nil_r|done|];
        intros T' tps' out [= <-] Hj'; rewrite (journal_read_fun _ _ _ _ _ Hj' Hj), Eu; done).
  unfold io_bind at 1, io_of at 1. unfold io_bind at 1.
  destruct (write_ledger E output (into_ledger ho out) (steps (steps (steps w es1) []) [])) as [es2 r2] eqn:Ew.
  exists (es1 ++ es2), (let! _ := r2 in Ok (Some tt)). split.
  { destruct r2 as [[]|e|]; cbn; by rewrite ?app_nil_r. }
  right. exists T, tps, out, es1, es2, r2. split_and!; try done. by destruct r2 as [[]|e|].
Qed.

Lemma c58_stops E X F ho n rules input output w es r w' : hash_order_ok ho → one_file F →
  rules_cmd E X F ho n rules input output w = (es, r) →
  (∀ out, ¬ rules_applied E X F w rules input out) → crash_world w es w' → r ≠ Ok (Some tt) ∧ untouched w w'.
Proof.
  intros Hho Hone H Hn Hc. destruct (rules_cmd_spec E X F ho n rules input output w) as (es' & r' & H' & Hcase).
  rewrite H in H'. injection H' as <- <-. destruct Hcase as [(Hq & Hr & _)|(T & tps & out & es1 & es2 & r2 & H1 & H2 & H3 & _)].
  - split; [done|]. by apply (quiet_crash w es).
  - exfalso. apply (Hn out). apply load_from_path_ok in H1; [|done|done]. exists T, tps. split_and!; [done|done|].
    apply (c54_journal X ho); [done|apply H1|by exists n].
Qed.
Lemma c58_written E X F ho n rules input output w es : hash_order_ok ho → one_file F →
  rules_cmd E X F ho n rules input output w = (es, Ok (Some tt)) →
  ∃ out, rules_applied E X F w rules input out ∧ holds w (steps w es) output (e_print E (into_ledger ho out)) ∧
    ∀ p, output ≠ Path p → same_file w (steps w es) p.
Proof.
  intros Hho Hone H. destruct (rules_cmd_spec E X F ho n rules input output w) as (es' & r' & H' & Hcase).
  rewrite H in H'. injection H' as <- <-. destruct Hcase as [(Hq & Hr & _)|(T & tps & out & es1 & es2 & r2 & H1 & H2 & H3 & Hq & -> & Hw & Hr)]; [done|].
  apply load_from_path_ok in H1; [|done|done]. exists out. split.
  { exists T, tps. split_and!; [done|done|]. apply (c54_journal X ho); [done|apply H1|by exists n]. }
  destruct Hr as [_ Hr]. specialize (Hr eq_refl). subst r2. unfold write_ledger in Hw.
  destruct (write_file_spec E output (e_print E (into_ledger ho out)) (steps w es1)) as (es3 & r3 & Hw' & Hs & _).
  rewrite Hw in Hw'. injection Hw' as <- <-. destruct Hs as [[_ Hs]|[? _]]; [|done]. rewrite steps_app, Hs.
  destruct (quiet_untouched w es1 Hq) as (Hf & _ & Ho). split.
  - destruct output as [|p]; cbn; [by rewrite Ho|by rewrite lookup_insert].
  - intros p Hp. pose proof (written_other (steps w es1) output (e_print E (into_ledger ho out)) p Hp) as Hx. unfold same_file in *. by rewrite Hx, Hf.
Qed.
Lemma c58_crash E X F ho n rules input output w es r w' : hash_order_ok ho → one_file F →
  rules_cmd E X F ho n rules input output w = (es, r) → crash_world w es w' →
  (∀ p, output ≠ Path p → same_file w w' p) ∧ w_dirs w' = w_dirs w ∧
  (untouched w w' ∨ ∃ out part rest, rules_applied E X F w rules input out ∧
     e_print E (into_ledger ho out) = part ++ rest ∧ holds w w' output part).
Proof.
  intros Hho Hone H Hc. destruct (rules_cmd_spec E X F ho n rules input output w) as (es' & r' & H' & Hcase).
  rewrite H in H'. injection H' as <- <-. destruct Hcase as [(Hq & Hr & _)|(T & tps & out & es1 & es2 & r2 & H1 & H2 & H3 & Hq & -> & Hw & Hr)].
  { destruct (quiet_crash w es w' Hq Hc) as (Hf & Hd & Ho). split_and!; [intros p _; unfold same_file; by rewrite Hf|done|by left]. }
  apply load_from_path_ok in H1; [|done|done].
  apply crash_app in Hc as [Hc|Hc].
  { destruct (quiet_crash w es1 w' Hq Hc) as (Hf & Hd & Ho). split_and!; [intros p _; unfold same_file; by rewrite Hf|done|by left]. }
  destruct (quiet_untouched w es1 Hq) as (Hf & Hd & Ho). unfold write_ledger in Hw.
  destruct (write_file_spec E output (e_print E (into_ledger ho out)) (steps w es1)) as (es3 & r3 & Hw' & _ & Hcr).
  rewrite Hw in Hw'. injection Hw' as <- <-. destruct (Hcr w' Hc) as [-> |(part & rest & Htext & ->)].
  { split_and!; [intros p _; unfold same_file; by rewrite Hf|done|by left]. }
  split_and!.
  - intros p Hp. pose proof (written_other (steps w es1) output part p Hp) as Hx. unfold same_file in *. by rewrite Hx, Hf.
  - by destruct output.
  - right. exists out, part, rest. split_and!; [|done|].
    + exists T, tps. split_and!; [done|done|]. apply (c54_journal X ho); [done|apply H1|by exists n].
    + destruct output as [|p]; cbn; [by rewrite Ho|by rewrite lookup_insert].
Qed.
Lemma c58_succeeds E X F ho paths rules input output w out : hash_order_ok ho → one_file F → all_paths F paths →
  rules_applied E X F w rules input out → writable E output →
  ∃ n0, ∀ n, n0 ≤ n → ∃ es, rules_cmd E X F ho n rules input output w = (es, Ok (Some tt)).
Proof.
  intros Hho Hone Hp (T & tps & HT & Hj & Hup) Hw. apply (c54_journal X ho) in Hup as [n1 Hup]; [|done|apply HT].
  exists (n1 `max` S (length paths)). intros n Hn.
  destruct (rules_cmd_spec E X F ho n rules input output w) as (es & r & H & Hcase). exists es. rewrite H. f_equal.
  destruct Hcase as [(_ & _ & Hno)|(T' & tps' & out' & es1 & es2 & r2 & H1 & H2 & H3 & _ & _ & Hwr & Hr)].
  - exfalso. apply (Hno T tps out); [|done|].
    + apply (load_from_path_complete F ho paths); [done|done|done|lia|done].
    + apply (update_transactions_grows X ho T n1); [lia|done].
  - apply Hr. destruct (write_file_ok E output (e_print E (into_ledger ho out')) (steps w es1) Hw) as [es3 Hw3].
    unfold write_ledger in Hwr. congruence.
Qed.
Lemma posts_end_split X T t ps1 p ps2 t' ps' : posts_end X T t (ps1 ++ p :: ps2) t' ps' →
  ∃ t1 ps1' c, posts_end X T t ps1 t1 ps1' ∧ chain_ends X T (s2l "start") (RCtx t1 p) (Ok c).
Proof.
  revert t ps'. induction ps1 as [|p1 ps1 IH]; intros t ps' H; cbn in H; inversion H; subst.
  - eexists t, [], _. split; [constructor|eassumption].
  - destruct (IH _ _ ltac:(eassumption)) as (t2 & ps3 & c & H1 & H2). eexists t2, (_ :: ps3), c. split; [by econstructor|done].
Qed.
Lemma c58_rule_error E X F w rules input T tps t ps1 p ps2 t1 ps1' e out :
  rules_loaded F rules T → journal_read E w input tps → TP t (ps1 ++ p :: ps2) ∈ tps →
  posts_end X T t ps1 t1 ps1' → chain_ends X T (s2l "start") (RCtx t1 p) (Err e) →
  ¬ rules_applied E X F w rules input out.
Proof.
  intros HT Hj Hin Hps Hc (T' & tps' & HT' & Hj' & Hall).
  rewrite (rules_loaded_fun _ _ _ _ HT' HT) in Hall. rewrite (journal_read_fun _ _ _ _ _ Hj' Hj) in Hall.
  apply elem_of_list_lookup in Hin as [i Hi]. destruct (Forall2_lookup_l _ _ _ _ _ Hall Hi) as (tp' & _ & Hp). cbn in Hp.
  apply posts_end_split in Hp as (t2 & ps2' & c & H1 & H2).
  destruct (posts_end_fun _ _ _ _ _ _ _ _ Hps H1) as [<- _].
  by pose proof (c54_det _ _ _ _ _ _ Hc H2).
Qed.

(** * Laws *)

Lemma rules_end_app X T before rest c c1 out : Forall (λ r, r_result r = RContinue) before →
  rules_end X T before c (Ok c1) → rules_end X T rest c1 out → rules_end X T (before ++ rest) c out.
Proof.
  intros HF. revert c. induction HF as [|r before Hr _ IH]; intros c H Hrest; inversion H; subst; cbn [app].
  - done.
  - apply end_skip; auto.
  - congruence.
  - eapply end_continue; eauto.
Qed.
Lemma c54_return X T name before r after c c1 c2 :
  T !! name = Some (before ++ r :: after) → r_result r = RReturn →
  rules_end X T before c (Ok c1) → Forall (λ r, r_result r = RContinue) before →
  holds_for X c1 (r_predicate r) → acts X T (r_action r) c1 (Ok c2) →
  ∀ out, chain_ends X T name c out ↔ out = Ok c2.
Proof.
  intros HT Hr Hb HF Hp Ha out.
  assert (chain_ends X T name c (Ok c2)) as H.
  { apply (chain_found _ _ _ _ _ _ HT). apply (rules_end_app X T before (r :: after) c c1); [done|done|]. by apply end_return. }
  split; [|by intros ->]. intros H'. by apply (c54_det X T name c).
Qed.
Lemma rules_end_det X T rs c out out' : rules_end X T rs c out → rules_end X T rs c out' → out = out'.
Proof.
  intros H H'. destruct (ends_complete X default_order T default_order_ok) as (_ & HR & _).
  destruct (HR _ _ _ H) as [n Hn]. destruct (HR _ _ _ H') as [n' Hn'].
  apply (apply_rules_grows X default_order _ (apply_chain X default_order T (n `max` n'))) in Hn; [|apply apply_chain_grows; lia].
  apply (apply_rules_grows X default_order _ (apply_chain X default_order T (n `max` n'))) in Hn'; [|apply apply_chain_grows; lia].
  congruence.
Qed.
Lemma c54_jump X T name m res after c c1 out :
  T !! name = Some (Rule PTrue (AJump m) res :: after) → chain_ends X T m c (Ok c1) →
  chain_ends X T name c out ↔ match res with RReturn => out = Ok c1 | RContinue => rules_end X T after c1 out end.
Proof.
  intros HT Hm. assert (acts X T (AJump m) c (Ok c1)) as Ha by (by constructor).
  assert (holds_for X c PTrue) as Hp by constructor.
  destruct res; split.
  - intros H. inversion H as [? rs ? ? HT' Hrs|]; subst; [|congruence]. rewrite HT in HT'. injection HT' as <-.
    inversion Hrs as [|? ? ? ? Hf|? ? ? ? _ He|? ? ? ? _ _ Hr|? ? ? c2 ? _ Hc _ Hrest]; subst; cbn in *.
    + inversion Hf.
    + inversion He as [? ? ? Hed|?|? ? ? Hj| | |]; subst. by pose proof (c54_det _ _ _ _ _ _ Hm Hj).
    + done.
    + inversion Hc as [? ? ? Hed|?|? ? ? Hj| | |]; subst; [done|].
      pose proof (c54_det _ _ _ _ _ _ Hm Hj). by simplify_eq.
  - intros H. apply (chain_found _ _ _ _ _ _ HT). by apply (end_continue _ _ _ _ _ c1).
  - intros H. apply (c54_det X T name c); [done|]. apply (chain_found _ _ _ _ _ _ HT). by apply end_return.
  - intros ->. apply (chain_found _ _ _ _ _ _ HT). by apply end_return.
Qed.

Lemma c55_validate ho T : hash_order_ok ho →
  (validate ho T = Ok tt ↔ start_and_jumps T) ∧ (validate ho T ≠ Ok tt → validate ho T = Err EChainNotFound).
Proof. intros Hho. split; [by apply validate_spec|]. by destruct (validate_error ho T). Qed.

(** Errors come from Error actions. *)
Lemma ends_errors X T :
  (∀ a c out, acts X T a c out → known T a → ∀ e, out = Err e → e = EChainNotFound ∨ (e = ERuleError ∧ ∃ msg, has_action T (AError msg))) ∧
  (∀ rs c out, rules_end X T rs c out → (∀ r, r ∈ rs → known T (r_action r)) →
     ∀ e, out = Err e → e = EChainNotFound ∨ (e = ERuleError ∧ ∃ msg, has_action T (AError msg))) ∧
  (∀ name c out, chain_ends X T name c out → ∀ e, out = Err e → e = EChainNotFound ∨ (e = ERuleError ∧ ∃ msg, has_action T (AError msg))).
Proof.
  apply ends_mind; try (intros; discriminate).
  - intros msg c Hk e [= <-]. right. split; [done|]. exists msg. by apply Hk; [constructor|].
  - intros name c out _ IH _ e ->. by apply IH.
  - intros a l c c1 out _ _ _ IH [_ Hl]%known_cons e ->. by apply IH.
  - intros a l c e' _ IH [Ha _]%known_cons e [= ->]. by apply IH.
  - intros r rs c out _ _ IH Hk e ->. apply IH; [|done]. intros r' Hr'. apply Hk. by right.
  - intros r rs c e' _ _ IH Hk e [= ->]. apply IH; [|done]. apply Hk. by left.
  - intros r rs c c1 out _ _ _ _ _ IH Hk e ->. apply IH; [|done]. intros r' Hr'. apply Hk. by right.
  - intros name rs c out E _ IH e ->. apply IH; [|done]. intros r Hr b Hb _. by exists name, rs, r.
  - intros name c _ e [= <-]. by left.
Qed.
Lemma update_posts_stop chain t ps out : update_posts chain t ps = Some out → (∀ x, out ≠ Ok x) →
  ∃ c out', chain c = Some out' ∧ (∀ x, out' ≠ Ok x) ∧ (∀ e, out = Err e → out' = Err e) ∧ (out = Panic → out' = Panic).
Proof.
  revert t out. induction ps as [|p ps IH]; intros t out; cbn [update_posts].
  - intros [= <-] H. by destruct (H (t, [])).
  - intros [(c & E & H)|[(e & E & ->)|[E ->]]]%run_bind_some Hn.
    + apply run_bind_some in H as [([t' ps'] & _ & [= <-])|[(e & E' & ->)|[E' ->]]]; [by destruct (Hn (t', rc_post c :: ps'))| |].
      * destruct (IH _ _ E') as (c' & o & H1 & H2 & H3 & H4); [done|]. by exists c', o.
      * destruct (IH _ _ E') as (c' & o & H1 & H2 & H3 & H4); [done|]. by exists c', o.
    + exists (RCtx t p), (Err e). split; [done|]. split; [done|]. split; [|done]. by intros e' [= ->].
    + exists (RCtx t p), Panic. split; [done|]. split; [done|]. split; [|done]. done.
Qed.
Lemma c73_errors X ho T n tps : hash_order_ok ho → (∀ name, used T name → is_Some (T !! name)) →
  match update_transactions X ho T n tps with
  | Some (Err e) => e = ERuleError ∧ ∃ msg, has_action T (AError msg)
  | Some Panic => False
  | _ => True
  end.
Proof.
  intros Hho HT. pose proof (chains_found X ho T n tps Hho HT) as Hne.
  destruct (update_transactions X ho T n tps) as [[out|e|]|] eqn:E; [done| | |done].
  - apply update_transactions_stop in E; [|done]. destruct E as (b & tp & a & -> & _ & H).
    unfold update_transaction in H. destruct (HT (s2l "start")) as [rs Hrs]; [by apply rtc_refl|].
    change (s2l "start") with START_CHAIN in Hrs. rewrite Hrs in H.
    apply run_bind_some in H as [(x & _ & [=])|[(e1 & H & [= ->])|[_ [=]]]].
    apply run_bind_some in H as [([t ps] & _ & [=])|[(e' & H & [= ->])|[_ [=]]]].
    apply update_posts_stop in H as (c & out' & H1 & H2 & H3 & _); [|done].
    rewrite (H3 e' eq_refl) in H1. apply (chain_sound X ho T n) in H1; [|done].
    destruct (ends_errors X T) as (_ & _ & HE). destruct (HE _ _ _ H1 e' eq_refl) as [-> | ?]; [done|done].
  - apply update_transactions_stop in E; [|done]. destruct E as (b & tp & a & -> & _ & H).
    unfold update_transaction in H. destruct (HT (s2l "start")) as [rs Hrs]; [by apply rtc_refl|].
    change (s2l "start") with START_CHAIN in Hrs. rewrite Hrs in H.
    apply run_bind_some in H as [(x & _ & [=])|[(e1 & H & [=])|[H _]]].
    apply run_bind_some in H as [([t ps] & _ & [=])|[(e' & H & [=])|[H _]]].
    apply update_posts_stop in H as (c & out' & H1 & H2 & _ & H3); [|done].
    rewrite (H3 eq_refl) in H1. by apply chain_no_panic in H1.
Qed.

Lemma c57_boolean X c :
  holds_for X c PTrue ∧ (∀ p, holds_for X c (PNot p) ↔ ¬ holds_for X c p) ∧
  (∀ l, holds_for X c (PAll l) ↔ ∀ p, p ∈ l → holds_for X c p) ∧
  (∀ l, holds_for X c (PAny l) ↔ ∃ p, p ∈ l ∧ holds_for X c p) ∧
  (∀ l, holds_for X c (PNot (PAll l)) ↔ holds_for X c (PAny (PNot <$> l))) ∧
  (∀ l, holds_for X c (PNot (PAny l)) ↔ holds_for X c (PAll (PNot <$> l))).
Proof.
  assert (∀ p, holds_for X c (PNot p) ↔ fails_for X c p) as Hn.
  { intros p. split; [intros H; by inversion H|by constructor]. }
  split_and!.
  - constructor.
  - intros p. rewrite Hn. apply holds_not.
  - intros l. split; [intros H; by inversion H|by constructor].
  - intros l. split; [intros H; inversion H; eauto|intros (p & ? & ?); by apply (hf_any _ _ _ p)].
  - intros l. rewrite Hn. split.
    + intros H. inversion H as [? p Hp Hf| | | | | | | |]; subst. apply (hf_any _ _ _ (PNot p)); [by apply elem_of_list_fmap_1|by constructor].
    + intros H. inversion H as [| |? p Hp Hh| | | | | | |]; subst. apply elem_of_list_fmap in Hp as (q & -> & Hq).
      apply (ff_all _ _ _ q); [done|]. by apply Hn.
  - intros l. rewrite Hn. split.
    + intros H. constructor. intros p (q & -> & Hq)%elem_of_list_fmap. constructor. inversion H; subst. auto.
    + intros H. constructor. intros p Hp. inversion H; subst. apply Hn. match goal with H : ∀ p, _ → _ |- _ => apply H end. by apply elem_of_list_fmap_1.
Qed.
Lemma c57_order X ho ho' p c : hash_order_ok ho → hash_order_ok ho' → is_match X ho p c = is_match X ho' p c.
Proof.
  intros H1 H2. destruct (is_match X ho p c) eqn:E1, (is_match X ho' p c) eqn:E2; try done.
  - apply is_match_holds in E1; [|done]. apply is_match_fails in E2; [|done]. by destruct (holds_fails _ _ _ E1 E2).
  - apply is_match_holds in E2; [|done]. apply is_match_fails in E1; [|done]. by destruct (holds_fails _ _ _ E2 E1).
Qed.

Lemma update_one X ho T n tp : update_transactions X ho T n [tp] =
  match update_transaction X ho T n tp with
  | Some (Ok tp') => Some (Ok [tp']) | Some (Err e) => Some (Err e) | Some Panic => Some Panic | None => None end.
Proof. cbn [update_transactions]. by destruct (update_transaction X ho T n tp) as [[]|]. Qed.
Lemma c75 X ho T n tps out : update_transactions X ho T n tps = Some (Ok out) ↔
  Forall2 (λ tp tp', update_transactions X ho T n [tp] = Some (Ok [tp'])) tps out.
Proof.
  rewrite update_transactions_ok. split; (intros H; eapply Forall2_impl; [exact H|]); intros tp tp'; cbv beta; rewrite update_one.
  - by intros ->.
  - destruct (update_transaction X ho T n tp) as [[]|]; naive_solver.
Qed.
Lemma c75_failure X ho T n tps e : update_transactions X ho T n tps = Some (Err e) ↔
  ∃ before tp after, tps = before ++ tp :: after ∧
    (∀ tp', tp' ∈ before → ∃ o, update_transactions X ho T n [tp'] = Some (Ok o)) ∧
    update_transactions X ho T n [tp] = Some (Err e).
Proof.
  rewrite update_transactions_stop by done. split; intros (b & tp & a & -> & H1 & H2); exists b, tp, a; (split_and!; [done| |]).
  - intros tp' Htp'. rewrite update_one. destruct (H1 tp' Htp') as [o ->]. eauto.
  - rewrite update_one. destruct (update_transaction X ho T n tp) as [[]|]; naive_solver.
  - intros tp' Htp'. destruct (H1 tp' Htp') as [o Ho]. rewrite update_one in Ho.
    destruct (update_transaction X ho T n tp') as [[]|]; naive_solver.
  - rewrite update_one in H2. destruct (update_transaction X ho T n tp) as [[]|]; naive_solver.
Qed.
