(** Loading rules: termination, and which chains are loaded. *)
From stdpp Require Import gmap list relations.
From Verif Require Import Base Types CommentModel MergeModel CmdModel SpecBase BaseProofs MergeProofs CmdClaims RulesModel RulesClaims RulesProofs.
Local Open Scope nat_scope.

Definition loader := str → list entry → loaded → run loaded.
Fixpoint load_entries (F : rules_fs) (rec : loader) (self : str) (entries : list entry) (s : loaded) : run loaded :=
  match entries with
  | [] => Some (Ok s)
  | EInclude inc :: entries =>
      match rf_parent F self with
      | None => Some (Err EIo)
      | Some dir =>
          match rf_open F (rf_join F dir inc) with
          | None => Some (Err EParse)
          | Some included => run_bind (rec (rf_join F dir inc) included s) (load_entries F rec self entries)
          end
      end
  | EChain name rules :: entries =>
      match s.1 !! name with
      | Some _ => Some (Err EDupChain)
      | None => load_entries F rec self entries (<[name := rules]> s.1, s.2)
      end
  end.
Lemma load_into_S F n path entries s : load_into F (S n) path entries s =
  match rf_canonical F path with
  | None => Some (Err EIo)
  | Some self => if decide (self ∈ s.2) then Some (Ok s)
                 else load_entries F (load_into F n) self entries (s.1, {[self]} ∪ s.2)
  end.
Proof.
  cbn [load_into]. destruct (rf_canonical F path) as [self|]; [|done]. destruct (decide (self ∈ s.2)); [done|].
  generalize (s.1, {[self]} ∪ s.2). clear. induction entries as [|[inc|name rs] entries IH]; intros s; cbn [load_entries].
  - done.
  - destruct (rf_parent F self) as [dir|]; [|done]. destruct (rf_open F (rf_join F dir inc)); [|done].
    destruct (load_into F n (rf_join F dir inc) l s) as [[s'|e|]|]; cbn [run_bind]; [apply IH|done|done|done].
  - destruct (s.1 !! name); [done|apply IH].
Qed.

(** * Termination *)

(** Loading only adds to the files seen. *)
Lemma load_seen_mono F n : ∀ path es s s', load_into F n path es s = Some (Ok s') → s.2 ⊆ s'.2.
Proof.
  induction n as [|n IH]; intros path es s s'; [done|]. rewrite load_into_S.
  destruct (rf_canonical F path) as [self|]; [|done]. destruct (decide (self ∈ s.2)); [by intros [= <-]|].
  intros H. assert (({[self]} ∪ s.2 : gset str) ⊆ s'.2); [|set_solver].
  change ({[self]} ∪ s.2) with ((s.1, {[self]} ∪ s.2).2). revert H. generalize (s.1, {[self]} ∪ s.2).
  clear s n0. induction es as [|[inc|name rs] es IHes]; intros s; cbn [load_entries].
  - by intros [= <-].
  - destruct (rf_parent F self) as [dir|]; [|done]. destruct (rf_open F (rf_join F dir inc)); [|done].
    intros [(s1 & E & H)|[(e & _ & [=])|[_ [=]]]]%run_bind_some. apply IH in E. apply IHes in H. set_solver.
  - destruct (s.1 !! name); [done|]. apply IHes.
Qed.
Lemma load_terminates F paths : all_paths F paths →
  ∀ n path es s, size ((list_to_set paths : gset str) ∖ s.2) < n → load_into F n path es s ≠ None.
Proof.
  intros Hp. induction n as [|n IH]; intros path es s Hn; [lia|]. rewrite load_into_S.
  destruct (rf_canonical F path) as [self|] eqn:E; [|done]. destruct (decide (self ∈ s.2)) as [|Hs]; [done|].
  apply Hp in E. assert (size ((list_to_set paths : gset str) ∖ ({[self]} ∪ s.2)) < n) as Hn'.
  { assert (size ((list_to_set paths : gset str) ∖ ({[self]} ∪ s.2)) < size ((list_to_set paths : gset str) ∖ s.2)); [|lia].
    apply subset_size. split; [set_solver|]. intros Hsub.
    assert (self ∈ (list_to_set paths : gset str) ∖ s.2) as Hin by (apply elem_of_difference; split; [by apply elem_of_list_to_set|done]).
    apply Hsub in Hin. set_solver. }
  change (size ((list_to_set paths : gset str) ∖ (s.1, {[self]} ∪ s.2).2) < n) in Hn'.
  clear Hn E Hs. revert Hn'. generalize (s.1, {[self]} ∪ s.2).
  clear s. induction es as [|[inc|name rs] es IHes]; intros s Hs; cbn [load_entries]; [done| |].
  - destruct (rf_parent F self) as [dir|]; [|done]. destruct (rf_open F (rf_join F dir inc)) as [es'|]; [|done].
    specialize (IH (rf_join F dir inc) es' s Hs).
    destruct (load_into F n (rf_join F dir inc) es' s) as [[s'|e|]|] eqn:E; cbn [run_bind]; try done.
    apply IHes. apply load_seen_mono in E. eapply Nat.le_lt_trans; [|exact Hs]. apply subseteq_size. set_solver.
  - destruct (s.1 !! name); [done|]. by apply IHes.
Qed.

(** * Outcome *)

Definition defs_of (es : list entry) : list (str * list rule) :=
  omap (λ e, match e with EChain n rs => Some (n, rs) | EInclude _ => None end) es.
Lemma definitions_open F q es : rf_open F q = Some es → definitions F q = defs_of es.
Proof. intros H. unfold definitions. by rewrite H. Qed.

Lemma nodup_perm {A} (l k : list A) : l ≡ₚ k → NoDup l → NoDup k.
Proof. by intros ->. Qed.
Lemma nodup_mid {A} (a b c : list A) : NoDup (a ++ b ++ c) → NoDup (a ++ c).
Proof.
  intros H. apply (nodup_perm _ (b ++ a ++ c)) in H; [by apply NoDup_app in H as (_ & _ & ?)|].
  rewrite !(assoc_L (++)). f_equiv. apply Permutation_app_comm.
Qed.
(** The includes of [q] are all readable and among [S]. *)
Definition closed_in (F : rules_fs) (S : gset str) (q : str) : Prop :=
  (∀ es i, rf_open F q = Some es → EInclude i ∈ es → is_Some (rf_parent F q)) ∧
  ∀ p, includes F q p → is_Some (rf_open F p) ∧ ∃ q', rf_canonical F p = Some q' ∧ q' ∈ S.
Lemma closed_in_mono F S S' q : S ⊆ S' → closed_in F S q → closed_in F S' q.
Proof. intros HS [H1 H2]. split; [done|]. intros p Hp. destruct (H2 p Hp) as [? (q' & ? & ?)]. eauto 10. Qed.

(** What a part of the loading has added: the files [new]. *)
Record added (F : rules_fs) (s s' : loaded) (own : list (str * list rule)) (new : list str) : Prop := {
  ad_nodup : NoDup new;
  ad_new : ∀ q, q ∈ new → q ∉ s.2;
  ad_seen : ∀ q, q ∈ s'.2 ↔ q ∈ s.2 ∨ q ∈ new;
  ad_closed : ∀ q, q ∈ new → closed_in F s'.2 q;
  ad_chains : map_to_list s'.1 ≡ₚ map_to_list s.1 ++ own ++ (new ≫= definitions F);
}.
(** The files from which [q] is reached through an include are in [P]. *)
Definition from_seen (F : rules_fs) (P : str → Prop) : Prop :=
  ∀ q p q', P q → includes F q p → rf_canonical F p = Some q' → P q'.

Lemma added_none F s : added F s s [] [].
Proof.
  constructor.
  - constructor.
  - intros q []%elem_of_nil.
  - intros q. rewrite elem_of_nil. tauto.
  - intros q []%elem_of_nil.
  - by rewrite !app_nil_r.
Qed.
Lemma added_trans F s s1 s2 own1 own2 new1 new2 : added F s s1 own1 new1 → added F s1 s2 own2 new2 →
  added F s s2 (own1 ++ own2) (new1 ++ new2).
Proof.
  intros [A1 A2 A3 A4 A5] [B1 B2 B3 B4 B5]. constructor.
  - apply NoDup_app. split_and!; [done| |done]. intros q H1 H2. apply (B2 q H2). apply A3. by right.
  - intros q [H|H]%elem_of_app; [by apply A2|]. intros Hq. apply (B2 q H). apply A3. by left.
  - intros q. rewrite B3, A3, elem_of_app. tauto.
  - intros q [H|H]%elem_of_app; [|by apply B4]. apply (closed_in_mono F s1.2); [|by apply A4].
    intros x Hx. apply B3. by left.
  - rewrite B5, A5, bind_app. rewrite <- !(assoc_L (++)). f_equiv. f_equiv.
    rewrite !(assoc_L (++)). f_equiv. by rewrite (Permutation_app_comm own2).
Qed.

Section outcome.
  Variable F : rules_fs.
  Hypothesis Hone : one_file F.
  Variable P : str → Prop.
  Hypothesis HP : from_seen F P.

  (** A part of loading that ended well. *)
  Definition went_well (s : loaded) (own : list (str * list rule)) (s' : loaded) : Prop :=
    ∃ new, added F s s' own new ∧ (∀ q, q ∈ new → P q).
  Definition dup (s : loaded) (own : list (str * list rule)) : Prop :=
    ∃ new, NoDup new ∧ (∀ q, q ∈ new → P q ∧ q ∉ s.2) ∧
      ¬ NoDup ((map_to_list s.1 ++ own ++ (new ≫= definitions F)).*1).
  Definition unreadable : Prop :=
    ∃ q, P q ∧ ((∃ es i, rf_open F q = Some es ∧ EInclude i ∈ es ∧ rf_parent F q = None) ∨
      ∃ p, includes F q p ∧ ¬ readable F p).

  Definition part (s : loaded) (own : list (str * list rule)) (bad : Prop) (out : result loaded) : Prop :=
    match out with
    | Ok s' => went_well s own s'
    | Err e => (e = EDupChain ∧ dup s own) ∨ (e ≠ EDupChain ∧ (unreadable ∨ bad))
    | Panic => False
    end.

  Lemma load_part n : ∀ path es s out, rf_open F path = Some es → (∀ q, rf_canonical F path = Some q → P q) →
    load_into F n path es s = Some out →
    part s [] (rf_canonical F path = None) out ∧
    ∀ s', out = Ok s' → ∃ q, rf_canonical F path = Some q ∧ q ∈ s'.2.
  Proof.
    induction n as [|n IH]; intros path es s out Hopen HPp; [done|]. rewrite load_into_S.
    destruct (rf_canonical F path) as [self|] eqn:Ec; [|intros [= <-]; split; [right; by split; [|right]|done]].
    specialize (HPp self eq_refl). rewrite (Hone _ _ Ec) in Hopen.
    destruct (decide (self ∈ s.2)) as [Hs|Hs].
    { intros [= <-]. split; [|intros s' [= <-]; eauto]. exists []. split; [apply added_none|]. intros q []%elem_of_nil. }
    (* the loop over the entries: [es0] are done *)
    assert (∀ es0 es1 s1 out, es = es0 ++ es1 → self ∈ s1.2 →
      load_entries F (load_into F n) self es1 s1 = Some out →
      part s1 (defs_of es1) False out ∧
      ∀ s', out = Ok s' → (∀ q, q ∈ s1.2 → q ∈ s'.2) ∧
        ∀ i, EInclude i ∈ es1 → ∃ dir, rf_parent F self = Some dir ∧ is_Some (rf_open F (rf_join F dir i)) ∧
          ∃ q', rf_canonical F (rf_join F dir i) = Some q' ∧ q' ∈ s'.2) as Hloop.
    { clear out s Hs. intros es0 es1. revert es0. induction es1 as [|[inc|name rs] es1 IHes]; intros es0 s1 out Hes Hself; cbn [load_entries].
      - intros [= <-]. split.
        + exists []. split; [apply added_none|]. intros q []%elem_of_nil.
        + intros s' [= <-]. split; [done|]. intros i []%elem_of_nil.
      - assert (EInclude inc ∈ es) as Hin by (rewrite Hes; set_solver).
        destruct (rf_parent F self) as [dir|] eqn:Ed.
        2: { intros [= <-]. split; [|done]. right. split; [done|]. left. exists self. split; [done|]. left. eauto. }
        assert (includes F self (rf_join F dir inc)) as Hincl by (by exists es, inc, dir).
        destruct (rf_open F (rf_join F dir inc)) as [es'|] eqn:Eo.
        2: { intros [= <-]. split; [|done]. right. split; [done|]. left. exists self. split; [done|]. right.
             exists (rf_join F dir inc). split; [done|]. intros [[x Hx] _]. congruence. }
        assert (∀ q, rf_canonical F (rf_join F dir inc) = Some q → P q) as HPi by (intros q Hq; by apply (HP self (rf_join F dir inc))).
        intros Hrun. apply run_bind_some in Hrun as [(s2 & E & H)|[(e & E & ->)|[E ->]]].
        + apply (IH _ _ _ _ Eo HPi) in E as [(new1 & Ha1 & Hn1) Hq]. destruct (Hq s2 eq_refl) as (q & Hq1 & Hq2).
          assert (self ∈ s2.2) as Hself2 by (apply (ad_seen _ _ _ _ _ Ha1); by left).
          destruct (IHes (es0 ++ [EInclude inc]) s2 out) as [Hp Ho]; [rewrite Hes; by rewrite <- (assoc_L (++))|done|done|]. split.
          * destruct out as [s3|e|]; cbn [part] in *; [| |done].
            -- destruct Hp as (new2 & Ha2 & Hn2). exists (new1 ++ new2). split; [by apply (added_trans F s1 s2 s3 [] (defs_of es1))|].
               intros q' [?|?]%elem_of_app; auto.
            -- destruct Hp as [[-> Hp]|Hp]; [left; split; [done|]|by right].
               destruct Hp as (new2 & Hnd & Hn2 & Hdup). exists (new1 ++ new2). split_and!.
               ++ apply NoDup_app. split_and!; [by apply (ad_nodup _ _ _ _ _ Ha1)| |done].
                  intros x Hx1 Hx2. apply Hn2 in Hx2 as [_ Hx2]. apply Hx2. apply (ad_seen _ _ _ _ _ Ha1). by right.
               ++ intros x [Hx|Hx]%elem_of_app.
                  ** split; [auto|]. by apply (ad_new _ _ _ _ _ Ha1).
                  ** apply Hn2 in Hx as [? Hx]. split; [done|]. intros Hx'. apply Hx. apply (ad_seen _ _ _ _ _ Ha1). by left.
               ++ intros Hnd'. apply Hdup. eapply nodup_perm; [|exact Hnd']. apply fmap_Permutation.
                  rewrite (ad_chains _ _ _ _ _ Ha1), bind_app. cbn [app defs_of omap list_omap]. fold (defs_of es1).
                  rewrite <- !(assoc_L (++)). f_equiv. rewrite !(assoc_L (++)). f_equiv. apply Permutation_app_comm.
          * intros s' Hs'. destruct (Ho s' Hs') as [Ho1 Ho2]. split.
            -- intros x Hx. apply Ho1. apply (ad_seen _ _ _ _ _ Ha1). by left.
            -- intros i [Hi|Hi]%elem_of_cons; [injection Hi as ->|by apply Ho2]. exists dir. split_and!; [done|by rewrite Eo|].
               exists q. split; [done|]. by apply Ho1.
        + apply (IH _ _ _ _ Eo HPi) in E as [Hp _]. split; [|done]. cbn [part] in *. destruct Hp as [[-> Hp]|[? Hp]].
          * left. split; [done|]. destruct Hp as (new & Hnd & Hn & Hdup). exists new. split_and!; [done|done|].
            intros Hnd'. apply Hdup. cbn [app].
            rewrite !fmap_app in *. by apply nodup_mid in Hnd'.
          * right. split; [done|]. left. destruct Hp as [?|Hp]; [done|].
            exists self. split; [done|]. right. exists (rf_join F dir inc). split; [done|]. intros [_ [x Hx]]. congruence.
        + by apply (IH _ _ _ _ Eo HPi) in E as [[] _].
      - destruct (s1.1 !! name) as [rs0|] eqn:En.
        + intros [= <-]. split; [|done]. left. split; [done|]. exists []. split_and!; [constructor|intros q []%elem_of_nil|].
          cbn [defs_of omap list_omap]. rewrite fmap_app. intros (_ & Hd & _)%NoDup_app. apply (Hd name).
          * apply elem_of_list_fmap. exists (name, rs0). split; [done|]. by apply elem_of_map_to_list.
          * cbn. by left.
        + intros H. destruct (IHes (es0 ++ [EChain name rs]) (<[name:=rs]> s1.1, s1.2) out) as [Hp Ho]; [rewrite Hes; by rewrite <- (assoc_L (++))|done|done|].
          cbn [defs_of omap list_omap]. fold (defs_of es1). split.
          * destruct out as [s3|e|]; cbn [part] in *; [| |done].
            -- destruct Hp as (new & [A1 A2 A3 A4 A5] & Hn). exists new. split; [|done]. constructor; try done.
               rewrite A5. cbn [fst]. rewrite map_to_list_insert by done. cbn [app]. rewrite <- Permutation_middle. done.
            -- destruct Hp as [[-> Hp]|Hp]; [left; split; [done|]|by right].
               destruct Hp as (new & Hnd & Hn & Hdup). exists new. split_and!; [done|done|].
               intros Hnd'. apply Hdup. eapply nodup_perm; [|exact Hnd']. apply fmap_Permutation.
               cbn [fst]. rewrite map_to_list_insert by done. cbn [app]. rewrite <- Permutation_middle. done.
          * intros s' Hs'. destruct (Ho s' Hs') as [Ho1 Ho2]. split; [done|]. intros i [Hi|Hi]%elem_of_cons; [done|by apply Ho2]. }
    intros Hrun. destruct (Hloop [] es (s.1, {[self]} ∪ s.2) out) as [Hp Ho]; [done|cbn; set_solver|done|].
    rewrite <- (definitions_open F self es Hopen) in Hp. split.
    - destruct out as [s'|e|]; cbn [part] in *; [| |done].
      + destruct Hp as (new & [A1 A2 A3 A4 A5] & Hn). destruct (Ho s' eq_refl) as [Ho1 Ho2]. exists (self :: new). split.
        * cbn [snd fst] in *. constructor.
          -- constructor; [|done]. intros H. apply (A2 self H). set_solver.
          -- intros q [->|Hq]%elem_of_cons; [done|]. intros Hq'. apply (A2 q Hq). set_solver.
          -- intros q. rewrite A3, elem_of_cons. set_solver.
          -- intros q [->|Hq]%elem_of_cons; [|by apply A4]. split.
             ++ intros es' i Hes' Hi. rewrite Hopen in Hes'. injection Hes' as <-. destruct (Ho2 i Hi) as (dir & -> & _). done.
             ++ intros p (es' & i & dir & Hes' & Hi & Hd & ->). rewrite Hopen in Hes'. injection Hes' as <-.
                destruct (Ho2 i Hi) as (dir' & Hd' & H1 & H2). rewrite Hd in Hd'. injection Hd' as <-. done.
          -- rewrite A5. done.
        * intros q [->|Hq]%elem_of_cons; [done|auto].
      + destruct Hp as [[-> Hp]|[He Hp]]; [left; split; [done|]|right; split; [done|]; left; by destruct Hp].
        destruct Hp as (new & Hnd & Hn & Hdup). exists (self :: new). split_and!.
        * constructor; [|done]. intros H. apply Hn in H as [_ H]. apply H. cbn. set_solver.
        * intros q [->|Hq]%elem_of_cons; [done|]. apply Hn in Hq as [? Hq]. split; [done|]. cbn in Hq. set_solver.
        * done.
    - intros s' ->. exists self. split; [done|]. apply Ho; [done|]. cbn. set_solver.
  Qed.
End outcome.

(** * C59 *)

Lemma reached_from_seen F p : from_seen F (reached F p).
Proof. intros q p' q' H1 H2 H3. by apply (reached_include F p q p'). Qed.

Lemma names_nodup F p files : defined_once F p → NoDup files → (∀ q, q ∈ files → reached F p q) →
  NoDup (files ≫= definitions F).*1.
Proof.
  intros [H1 H2] Hnd. induction Hnd as [|q files Hq _ IH]; intros Hr; [constructor|].
  rewrite bind_cons, fmap_app. apply NoDup_app. split_and!.
  - apply H1. apply Hr. by left.
  - intros n Hn Hn'. apply elem_of_list_fmap in Hn as ([n1 rs1] & -> & Hn). cbn in Hn'.
    apply elem_of_list_fmap in Hn' as ([n2 rs2] & E & Hn'). cbn in E. subst n2.
    apply elem_of_list_bind in Hn' as (q' & Hn' & Hq'). apply Hq.
    rewrite (H2 q q' n1 rs1 rs2); [done|apply Hr; by left|apply Hr; by right|done|done].
  - apply IH. intros q' Hq'. apply Hr. by right.
Qed.
Lemma names_once F files q q' n rs rs' : NoDup (files ≫= definitions F).*1 → q ∈ files → q' ∈ files →
  (n, rs) ∈ definitions F q → (n, rs') ∈ definitions F q' → q = q'.
Proof.
  induction files as [|x files IH]; [intros _ []%elem_of_nil|]. rewrite bind_cons, fmap_app.
  intros (H1 & H2 & H3)%NoDup_app Hq Hq' Hn Hn'.
  assert (∀ y r, y ∈ files → (n, r) ∈ definitions F y → n ∈ (files ≫= definitions F).*1) as Hin.
  { intros y r Hy Hr. apply elem_of_list_fmap. exists (n, r). split; [done|]. apply elem_of_list_bind. eauto. }
  assert (∀ r, (n, r) ∈ definitions F x → n ∈ (definitions F x).*1) as Hx.
  { intros r Hr. apply elem_of_list_fmap. by exists (n, r). }
  apply elem_of_cons in Hq as [-> | Hq]; apply elem_of_cons in Hq' as [-> | Hq']; [done| | |].
  - destruct (H2 n); eauto.
  - destruct (H2 n); eauto.
  - by apply IH.
Qed.
Lemma names_each F files q : NoDup (files ≫= definitions F).*1 → q ∈ files → NoDup (definitions F q).*1.
Proof.
  induction files as [|x files IH]; [intros _ []%elem_of_nil|]. rewrite bind_cons, fmap_app.
  intros (H1 & H2 & H3)%NoDup_app [-> |Hq]%elem_of_cons; [done|by apply IH].
Qed.

Lemma c59_sound F n p T : one_file F → load_file F n p = Some (Ok T) →
  all_readable F p ∧ defined_once F p ∧ chains_of_files F p T.
Proof.
  intros Hone. unfold load_file. destruct (rf_open F p) as [es|] eqn:Eo; [|done].
  intros [(s & E & [= <-])|[(e & _ & [=])|[_ [=]]]]%run_bind_some.
  apply (load_part F Hone (reached F p) (reached_from_seen F p)) in E as [(new & [A1 A2 A3 A4 A5] & Hn) Hq]; [|done|intros q Hq; by constructor].
  destruct (Hq s eq_refl) as (q0 & Hq0 & Hin). cbn [fst snd] in *.
  assert (∀ q, q ∈ s.2 ↔ q ∈ new) as Hs by (intros q; rewrite A3; set_solver).
  assert (∀ q, reached F p q → q ∈ new) as Hr.
  { intros q. induction 1 as [q Hc|q p' q' _ IH Hi Hc].
    - apply Hs. congruence.
    - destruct (A4 q IH) as [_ Hcl]. destruct (Hcl p' Hi) as (_ & q1 & Hq1 & Hin'). apply Hs. congruence. }
  rewrite map_to_list_empty in A5. cbn [app] in A5.
  assert (NoDup (new ≫= definitions F).*1) as Hnd.
  { eapply nodup_perm; [apply fmap_Permutation; exact A5|]. apply NoDup_fst_map_to_list. }
  split; [|split; [split|]].
  - split; [split; [by rewrite Eo|by rewrite Hq0]|]. intros q Hq'. destruct (A4 q (Hr q Hq')) as [Hp Hcl]. split; [|done].
    intros p' Hp'. destruct (Hcl p' Hp') as (? & q' & Hq1 & _). split; [done|]. by rewrite Hq1.
  - intros q Hq'. apply (names_each F new); [done|by apply Hr].
  - intros q q' m rs rs' H1 H2. apply (names_once F new q q' m rs rs'); [done|by apply Hr|by apply Hr].
  - intros m rs. rewrite <- elem_of_map_to_list, A5, elem_of_list_bind. split.
    + intros (q & H1 & H2). eauto.
    + intros (q & H1 & H2). eauto.
Qed.

Lemma size_list (l : list str) : size (list_to_set l : gset str) ≤ length l.
Proof.
  induction l as [|x l IH]; cbn [list_to_set length]; [by rewrite size_empty|].
  rewrite size_union_alt. rewrite size_singleton.
  assert (size ((list_to_set l : gset str) ∖ {[x]}) ≤ size (list_to_set l : gset str)) by (apply subseteq_size; set_solver). lia.
Qed.
Lemma c59_terminates F paths n p : all_paths F paths → length paths < n → load_file F n p ≠ None.
Proof.
  intros Hp Hn. unfold load_file. destruct (rf_open F p) as [es|]; [|done].
  assert (load_into F n p es (∅, ∅) ≠ None) as H.
  { apply (load_terminates F paths Hp). cbn [snd]. rewrite difference_empty_L. pose proof (size_list paths). lia. }
  by destruct (load_into F n p es (∅, ∅)) as [[s|e|]|].
Qed.
Lemma c59_error F n p e : one_file F → load_file F n p = Some (Err e) →
  (e = EDupChain ∧ ¬ defined_once F p) ∨ (e ≠ EDupChain ∧ ¬ all_readable F p).
Proof.
  intros Hone. unfold load_file. destruct (rf_open F p) as [es|] eqn:Eo.
  - intros [(s & _ & [=])|[(e' & E & [= <-])|[_ [=]]]]%run_bind_some.
    apply (load_part F Hone (reached F p) (reached_from_seen F p)) in E as [Hp _]; [|done|intros q Hq; by constructor].
    destruct Hp as [[-> (new & H1 & H2 & H3)]|[He Hp]]; [left|right]; (split; [done|]).
    + intros Hd. apply H3. cbn [fst]. rewrite map_to_list_empty. cbn [app]. apply (names_nodup F p); [done|done|]. intros q Hq. by apply H2.
    + intros [[_ Hc] Ha]. destruct Hp as [(q & Hq & Hp)|Hp]; [|rewrite Hp in Hc; by destruct Hc].
      destruct (Ha q Hq) as [Ha1 Ha2]. destruct Hp as [(es' & i & H1 & H2 & H3)|(p' & H1 & H2)].
      * destruct (Ha2 es' i H1 H2). congruence.
      * by apply H2, Ha1.
  - intros [= <-]. right. split; [done|]. intros [[[x Hx] _] _]. congruence.
Qed.
Lemma load_no_panic F n p : one_file F → load_file F n p ≠ Some Panic.
Proof.
  intros Hone. unfold load_file. destruct (rf_open F p) as [es|] eqn:Eo; [|done].
  intros [(s & _ & [=])|[(e' & E & [=])|[E _]]]%run_bind_some.
  apply (load_part F Hone (reached F p) (reached_from_seen F p)) in E as [[] _]; [done|]. intros q Hq. by constructor.
Qed.
Lemma c59 F paths n p T : one_file F → all_paths F paths → length paths < n →
  load_file F n p = Some (Ok T) ↔ all_readable F p ∧ defined_once F p ∧ chains_of_files F p T.
Proof.
  intros Hone Hp Hn. split; [by apply c59_sound|]. intros (H1 & H2 & H3).
  destruct (load_file F n p) as [[T'|e|]|] eqn:E.
  - apply c59_sound in E as (_ & _ & H3'); [|done]. do 2 f_equal. apply map_eq. intros m.
    apply option_eq. intros rs. by rewrite (H3' m rs), (H3 m rs).
  - by apply c59_error in E as [[_ ?]|[_ ?]].
  - by apply load_no_panic in E.
  - by apply (c59_terminates F paths) in E.
Qed.
