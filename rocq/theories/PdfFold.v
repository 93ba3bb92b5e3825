(** From the lines of a PDF statement to transactions. *)
From Verif Require Import MergeClaims.
From Verif Require Import Base Types SpecBase BaseProofs StrProofs CommentModel Sha1 FingerprintModel NwCsvModel PaypalModel
  CommentClaims FingerprintClaims FingerprintProofs FingerprintLaws ImportClaims ImportProofs OcrModel PdfModel PdfClaims PdfTable.
From Verif Require RulesProofs MergeProofs.
From Coq Require Import Lia.
Local Open Scope nat_scope.

(** ** Tables of a document *)
Definition tab_of (p : paragraph) : option pdf_table :=
  match find_in_paragraph p with Some c => Some (Table c p) | None => None end.
Lemma omap_app' {A B} (f : A → option B) l k : omap f (l ++ k) = omap f l ++ omap f k.
Proof. induction l as [|x l IH]; [done|]. cbn. destruct (f x); cbn; by rewrite IH. Qed.
Lemma model_tables doc : doc ≫= find_in_page = omap tab_of (doc_paragraphs doc).
Proof.
  unfold doc_paragraphs. induction doc as [|p doc IH]; [done|]. by rewrite !bind_cons, omap_app', <- IH.
Qed.
Lemma tab_of_spec p : match (λ t, (tb_columns t, tab_lines t)) <$> tab_of p with
  Some (c, ls) => table_in p c ls | None => ∀ c ls, ¬ table_in p c ls end.
Proof.
  unfold tab_of. pose proof (find_table p) as H. pose proof (find_table_none p) as H'.
  destruct (find_in_paragraph p) as [c|]; cbn; [by apply H|by apply H'].
Qed.
Lemma doc_tables_model doc : doc_tables doc ((λ t, (tb_columns t, tab_lines t)) <$> (doc ≫= find_in_page)).
Proof.
  rewrite model_tables. exists ((λ p, (λ t, (tb_columns t, tab_lines t)) <$> tab_of p) <$> doc_paragraphs doc). split.
  - apply Forall2_fmap_r, Forall_Forall2_diag, Forall_true. intros p. apply tab_of_spec.
  - induction (doc_paragraphs doc) as [|p ps IH]; [done|]. cbn. destruct (tab_of p); cbn; by rewrite IH.
Qed.
Definition same_columns (c c' : columns) : Prop :=
  (co_date c, co_details c, co_payments c, co_receipts c, co_balance c) = (co_date c', co_details c', co_payments c', co_receipts c', co_balance c').
Lemma doc_tables_fun doc t1 t2 : doc_tables doc t1 → doc_tables doc t2 → Forall2 (λ a b, a.2 = b.2 ∧ same_columns a.1 b.1) t1 t2.
Proof.
  intros (o1 & H1 & ->) (o2 & H2 & ->). revert o1 o2 H1 H2. induction (doc_paragraphs doc) as [|p ps IH]; intros o1 o2 H1 H2.
  - apply Forall2_nil_inv_l in H1, H2. subst. constructor.
  - apply Forall2_cons_inv_l in H1 as (x1 & o1' & Hx1 & H1 & ->). apply Forall2_cons_inv_l in H2 as (x2 & o2' & Hx2 & H2 & ->).
    specialize (IH _ _ H1 H2). destruct x1 as [[c1 l1]|], x2 as [[c2 l2]|]; cbn.
    + constructor; [|done]. destruct (table_in_fun _ _ _ _ _ Hx1 Hx2) as [-> Hc]. done.
    + by apply Hx2 in Hx1.
    + by apply Hx1 in Hx2.
    + done.
Qed.
Lemma table_reads_columns E c c' ls rs : same_columns c c' → table_reads E c ls rs → table_reads E c' ls rs.
Proof. destruct c, c'. unfold same_columns. cbn. intros [= -> -> -> -> ->]. exact id. Qed.
Lemma statement_lines_model E doc ls : statement_lines E doc ls ↔
  ∃ lss used, Forall2 (λ t l, read_lines E t = Ok l) (doc ≫= find_in_page) lss ∧ Forall2 before_gap lss used ∧ ls = mjoin used.
Proof.
  split.
  - intros (tabs & lss & used & Ht & Hl & Hu & ->). exists lss, used. split; [|done].
    pose proof (doc_tables_fun _ _ _ (doc_tables_model doc) Ht) as Hf. apply Forall2_fmap_l in Hf.
    eapply (Forall2_transitive _ _ (λ t l, read_lines E t = Ok l)) in Hl; [exact Hl| |exact Hf].
    intros t [c l] rs. cbn. intros [<- Hc] Hr. apply read_lines_spec. eapply table_reads_columns; [|exact Hr]. by symmetry.
  - intros (lss & used & Hl & Hu & ->). eexists _, lss, used. split; [apply doc_tables_model|]. split; [|done].
    apply Forall2_fmap_l. eapply Forall2_impl; [exact Hl|]. intros t l. cbn. apply read_lines_spec.
Qed.

(** ** Lines up to a blank one *)
Fixpoint feed_all (E : pdf_env) (ho : hash_order) (a : pdf_acc) (ls : list trn_line) : result pdf_acc :=
  match ls with [] => Ok a | l :: ls => let! a := feed_line E ho a l in feed_all E ho a ls end.
Lemma feed_all_app E ho a l k : feed_all E ho a (l ++ k) = let! a := feed_all E ho a l in feed_all E ho a k.
Proof. revert a. induction l as [|x l IH]; intros a; [done|]. cbn. destruct (feed_line E ho a x); [apply IH|done|done]. Qed.
Fixpoint upto_gap (prev : option trn_line) (ls : list trn_line) : list trn_line :=
  match ls with
  | [] => []
  | l :: ls => if match prev with Some p => (tl_top p + tl_height p * 2 <? tl_top l)%Z | None => false end then []
               else l :: upto_gap (Some l) ls
  end.
Lemma lines_to_upto E ho prev a ls : lines_to_transactions E ho prev a ls = feed_all E ho a (upto_gap prev ls).
Proof.
  revert prev a. induction ls as [|l ls IH]; intros prev a; [done|]. cbn [lines_to_transactions upto_gap].
  destruct prev as [p|]; [destruct (_ <? _)%Z|]; [done|..]; cbn [feed_all]; (destruct (feed_line E ho a l); [apply IH|done|done]).
Qed.
Lemma gapb p l : (tl_top p + tl_height p * 2 <? tl_top l)%Z = true ↔ gap p l.
Proof. unfold gap. rewrite Z.ltb_lt. lia. Qed.
Lemma upto_gap_spec prev ls : ∃ rest, ls = upto_gap prev ls ++ rest ∧
  (∀ i a b, (from_option (λ p, [p]) [] prev ++ upto_gap prev ls) !! i = Some a →
    (from_option (λ p, [p]) [] prev ++ upto_gap prev ls) !! S i = Some b → ¬ gap a b) ∧
  (rest = [] ∨ ∃ a b rest', last (from_option (λ p, [p]) [] prev ++ upto_gap prev ls) = Some a ∧ rest = b :: rest' ∧ gap a b).
Proof.
  revert prev. induction ls as [|l ls IH]; intros prev; cbn [upto_gap].
  - exists []. split; [done|]. split; [|by left]. destruct prev; intros [|i] a b; cbn; try done; by rewrite ?lookup_nil.
  - destruct (match prev with Some p => _ | None => false end) eqn:G.
    + destruct prev as [p|]; [|done]. apply gapb in G. exists (l :: ls). split; [done|]. split.
      * intros [|i] a b; cbn; done.
      * right. exists p, l, ls. done.
    + destruct (IH (Some l)) as (rest & E1 & E2 & E3). exists rest. split; [by rewrite E1 at 1|]. cbn [from_option app] in E2, E3. destruct prev as [p|]; cbn [from_option app].
      * split; [|rewrite last_cons_cons; exact E3]. intros [|i] a b Ha Hb; [|by apply (E2 i)]. cbn in Ha, Hb. simplify_eq/=. intros Hg%gapb. congruence.
      * split; [exact E2|exact E3].
Qed.
Lemma before_gap_upto ls used : before_gap ls used ↔ used = upto_gap None ls.
Proof.
  destruct (upto_gap_spec None ls) as (rest & E1 & E2 & E3). cbn [from_option app] in *. split.
  - intros (rest' & F1 & F2 & F3). set (u := upto_gap None ls) in *.
    assert (∀ (u v ru rv : list trn_line), u ++ ru = v ++ rv → (∀ i a b, v !! i = Some a → v !! S i = Some b → ¬ gap a b) →
      (ru = [] ∨ ∃ a b r', last u = Some a ∧ ru = b :: r' ∧ gap a b) → length v ≤ length u) as Hlen.
    { intros u1 v1 ru rv Heq Hv Hru. destruct (le_lt_dec (length v1) (length u1)) as [|Hlt]; [done|]. exfalso.
      destruct Hru as [->|(a & b & r' & Hla & -> & Hg)].
      - apply (f_equal length) in Heq. rewrite !app_length in Heq. cbn in Heq. lia.
      - rewrite last_lookup in Hla. destruct u1 as [|x u1]; [done|]. cbn [length pred] in Hla.
        assert (v1 !! length u1 = Some a) as H1.
        { rewrite <- (lookup_app_l v1 rv) by (cbn in Hlt; lia). rewrite <- Heq. rewrite lookup_app_l by (cbn; lia). done. }
        assert (v1 !! S (length u1) = Some b) as H2.
        { rewrite <- (lookup_app_l v1 rv) by (cbn in Hlt; lia). rewrite <- Heq. rewrite lookup_app_r by (cbn; lia). cbn. by rewrite Nat.sub_diag. }
        by apply (Hv _ _ _ H1 H2). }
    assert (u ++ rest = used ++ rest') as Heq by congruence.
    assert (length used = length u) as Hl.
    { apply Nat.le_antisymm; [by apply (Hlen _ _ _ _ Heq)|]. by apply (Hlen used u rest' rest). }
    apply (f_equal (take (length u))) in Heq. rewrite take_app in Heq. by rewrite <- Hl, take_app in Heq.
  - intros ->. exists rest. done.
Qed.
Lemma read_tables_spec E ho a ts a' : read_tables E ho a ts = Ok a' ↔
  ∃ lss, Forall2 (λ t l, read_lines E t = Ok l) ts lss ∧ feed_all E ho a (mjoin (upto_gap None <$> lss)) = Ok a'.
Proof.
  revert a. induction ts as [|t ts IH]; intros a; cbn [read_tables].
  - split.
    + intros [= <-]. by exists [].
    + intros (lss & H & Hf). apply Forall2_nil_inv_l in H as ->. done.
  - rewrite rbind_ok. split.
    + intros (ls & Hl & (a1 & Ha1 & H)%rbind_ok). apply IH in H as (lss & HF & Hf). exists (ls :: lss). split; [by constructor|].
      cbn [fmap list_fmap mjoin list_join]. rewrite feed_all_app. rewrite lines_to_upto in Ha1. rewrite Ha1. done.
    + intros (lss & (ls & lss' & Hl & HF & ->)%Forall2_cons_inv_l & Hf). exists ls. split; [done|].
      cbn [fmap list_fmap mjoin list_join] in Hf. rewrite feed_all_app in Hf. apply rbind_ok in Hf as (a1 & Ha1 & Hf).
      rewrite lines_to_upto, Ha1. cbn [rbind]. apply IH. eauto.
Qed.
Lemma statement_fed E ho a doc a' : read_tables E ho a (doc ≫= find_in_page) = Ok a' ↔
  ∃ ls, statement_lines E doc ls ∧ feed_all E ho a ls = Ok a'.
Proof.
  rewrite read_tables_spec. split.
  - intros (lss & HF & Hf). eexists. split; [|exact Hf]. apply statement_lines_model. exists lss, (upto_gap None <$> lss). split; [done|].
    split; [|done]. apply Forall2_fmap_r, Forall_Forall2_diag, Forall_true. intros l. by apply before_gap_upto.
  - intros (ls & (lss & used & HF & Hu & ->)%statement_lines_model & Hf). exists lss. split; [done|].
    assert (used = upto_gap None <$> lss) as <-; [|done].
    clear -Hu. induction Hu as [|l u lss us H%before_gap_upto _ IH]; [done|]. cbn. by rewrite H, IH.
Qed.

(** ** Groups *)
#[export] Instance starts_dec l : Decision (starts l).
Proof. unfold starts. apply _. Defined.
Lemma not_starts l : ¬ starts l ↔ continues l.
Proof. unfold starts, continues. destruct (tl_payment l), (tl_receipt l); naive_solver. Qed.
Lemma grouping ls : ∃ skip gs, grouped ls skip gs.
Proof.
  induction ls as [|l ls (skip & gs & -> & Hs & Hg)].
  - exists [], []. split_and!; [done|constructor|constructor].
  - destruct (decide (starts l)) as [Hl|Hl%not_starts].
    + exists [], ((l, skip) :: gs). split_and!; [done|constructor|]. constructor; [done|done].
    + exists (l :: skip), gs. split_and!; [done|by constructor|done].
Qed.
Lemma grouping_fun ls s1 g1 s2 g2 : grouped ls s1 g1 → grouped ls s2 g2 → s1 = s2 ∧ g1 = g2.
Proof.
  intros (E1 & S1 & G1) (E2 & S2 & G2). rewrite E1 in E2. clear E1.
  assert (∀ a b x y, a ++ (x ≫= group_lines) = b ++ (y ≫= group_lines) → Forall continues a → Forall continues b →
    Forall (λ g, starts g.1 ∧ Forall continues g.2) x → Forall (λ g, starts g.1 ∧ Forall continues g.2) y → a = b ∧ x ≫= group_lines = y ≫= group_lines) as Hsplit.
  { clear. induction a as [|l a IH]; intros [|l' b] x y E Ha Hb Hx Hy.
    - done.
    - destruct x as [|[h t] x]; [done|]. injection E as -> _. apply Forall_cons in Hb as [Hb _]. apply Forall_cons in Hx as [[Hx _] _]. by apply not_starts in Hb.
    - destruct y as [|[h t] y]; [done|]. injection E as -> _. apply Forall_cons in Ha as [Ha _]. apply Forall_cons in Hy as [[Hy _] _]. by apply not_starts in Ha.
    - injection E as -> E. apply Forall_cons in Ha as [_ Ha]. apply Forall_cons in Hb as [_ Hb]. destruct (IH b x y E) as [-> ?]; done. }
  destruct (Hsplit _ _ _ _ E2 S1 S2 G1 G2) as [-> E]. split; [done|]. clear -E G1 G2 Hsplit. revert g2 E G2.
  induction g1 as [|[h t] g1 IH]; intros [|[h' t'] g2] E G2; [done|done|done|]. rewrite !bind_cons in E. cbn [group_lines fst snd app] in E. injection E as -> E.
  apply Forall_cons in G1 as [[_ G] G1]. apply Forall_cons in G2 as [[_ G'] G2].
  destruct (Hsplit _ _ _ _ E G G' G1 G2) as [-> E']. f_equal. by apply IH.
Qed.

(** ** Amounts *)
Lemma filter_all'' {A} (P : A → Prop) `{Pdec : !∀ n, Decision (P n)} (l : list A) : (∀ n, n ∈ l → P n) → filter P l = l.
Proof.
  induction l as [|x l IH]; intros H; [done|]. rewrite filter_cons, decide_True by (apply H; constructor). f_equal. apply IH.
  intros y Hy. apply H. by constructor.
Qed.
Lemma parse_amount_spec E s a : parse_amount E s = Ok a ↔ reads_amount E s a.
Proof.
  unfold parse_amount, reads_amount. 
  assert ((if contains (s2l ",") s then pe_decimal E (filter (λ c, c ≠ 44%N) s) else pe_decimal E s) = pe_decimal E (filter (λ c, c ≠ 44%N) s)) as ->.
  { destruct (contains _ s) eqn:B; [done|]. f_equal. symmetry. apply filter_all''. intros c Hc ->.
    apply elem_of_list_split in Hc as (x & y & ->).
    assert (contains (s2l ",") (x ++ 44%N :: y) = true) as Hc; [|by pose proof (eq_trans (eq_sym Hc) B)]. apply RulesProofs.contains_spec. by exists x, y. }
  destruct (pe_decimal E _) as [q|]; [|naive_solver]. split.
  - intros [= <-]. done.
  - intros [[= ->] H]. f_equal. destruct a. cbn in *. by rewrite H.
Qed.

(** ** Folding *)
Definition or_else {A} (x y : option A) : option A := match x with Some _ => x | None => y end.
Definition more (b : trn_builder) (e : option date) (s : str) (bal : option amount) : trn_builder :=
  TrnBuilder (tb_date b) (tb_counter b) (tb_amount b) (tb_type b) (or_else e (tb_effective b)) (tb_description b ++ s)
    (or_else bal (tb_balance b)).
Definition texts (ls : list trn_line) : str :=
  mjoin ((s2l " " ++.) <$> filter (λ d, d ≠ []) (tl_detail <$> filter (λ l, ¬ effective_line l) ls)).
Lemma join_texts d ls : join (s2l " ") (d :: filter (λ d, d ≠ []) (tl_detail <$> filter (λ l, ¬ effective_line l) ls)) = d ++ texts ls.
Proof.
  unfold texts. set (ds := filter _ (_ <$> _)). clearbody ds. revert d. induction ds as [|x ds IH]; intros d.
  - cbn. by rewrite app_nil_r.
  - change (join (s2l " ") (d :: x :: ds)) with (d ++ s2l " " ++ join (s2l " ") (x :: ds)). rewrite IH. cbn [fmap list_fmap mjoin list_join].
    by rewrite <- !app_assoc.
Qed.
Lemma effective_spec l : starts_with (s2l "Effective Date ") (tl_detail l) = true ↔ effective_line l.
Proof. apply MergeProofs.starts_with_spec. Qed.
Lemma end_line_spec E ns b prev c ts l a' : end_line E (Accumulator ns (Some b) prev c ts) l = Ok a' ↔
  ∃ bs, Forall2 (reads_amount E) (option_list (tl_balance l)) bs ∧
    a' = Accumulator ns (Some (more b None [] (last bs))) (tl_date l) c ts.
Proof.
  unfold end_line. cbn [ac_current ac_ns ac_prev_date ac_counter ac_trns]. destruct (tl_balance l) as [s|]; cbn [option_list].
  - rewrite rbind_ok. split.
    + intros (x & Hx%parse_amount_spec & [= <-]). exists [x]. split; [exact (List.Forall2_cons _ _ Hx (List.Forall2_nil _))|]. unfold more. cbn. by rewrite app_nil_r.
    + intros (bs & (x & bs' & Hx & HF & ->)%Forall2_cons_inv_l & ->). apply Forall2_nil_inv_l in HF as ->. exists x.
      split; [by apply parse_amount_spec|]. unfold more. cbn. by rewrite app_nil_r.
  - split.
    + intros [= <-]. exists []. split; [constructor|]. unfold more. cbn. rewrite app_nil_r. by destruct b.
    + intros (bs & ->%Forall2_nil_inv_l & ->). unfold more. cbn. rewrite app_nil_r. by destruct b.
Qed.
Lemma more_more b e s x e' s' x' : more (more b e s x) e' s' x' = more b (or_else e' e) (s ++ s') (or_else x' x).
Proof. unfold more. cbn. rewrite app_assoc. by destruct e', e, x', x. Qed.
Lemma texts_cons l ls : texts (l :: ls) =
  (if decide (effective_line l) then [] else if decide (tl_detail l = []) then [] else s2l " " ++ tl_detail l) ++ texts ls.
Proof.
  unfold texts. rewrite filter_cons. destruct (decide (effective_line l)) as [H|H].
  - rewrite decide_False by naive_solver. done.
  - rewrite decide_True by done. rewrite fmap_cons, filter_cons. destruct (decide (tl_detail l = [])) as [H'|H'].
    + rewrite decide_False by naive_solver. done.
    + rewrite decide_True by done. done.
Qed.
Lemma continue_line E ho ns b prev c ts l a' : continues l →
  feed_line E ho (Accumulator ns (Some b) prev c ts) l = Ok a' ↔
  ∃ es bs, Forall2 (λ l e, pe_effective E (tl_detail l) = Some e) (filter effective_line [l]) es ∧
    Forall2 (reads_amount E) (option_list (tl_balance l)) bs ∧
    a' = Accumulator ns (Some (more b (last es) (texts [l]) (last bs))) (tl_date l) c ts.
Proof.
  intros [Hp Hr]. unfold feed_line. rewrite Hp, Hr. cbn [ac_current ac_ns ac_prev_date ac_counter ac_trns].
  rewrite rbind_ok. setoid_rewrite end_line_spec. rewrite texts_cons, filter_cons. cbn [filter list_filter].
  pose proof (effective_spec l) as He. destruct (decide (effective_line l)) as [H|H].
  - assert (starts_with (s2l "Effective Date ") (tl_detail l) = true) as Hs by (by apply He).
    assert (∃ x s, tl_detail l = x :: s) as (x & s & Ed).
    { destruct H as [x ->]. eexists _, _. reflexivity. }
    rewrite Ed in *. rewrite Hs. split.
    + intros (b' & Hb & bs & Hbs & ->). destruct (pe_effective E (x :: s)) as [e|] eqn:Ee; [|done]. injection Hb as <-.
      exists [e], bs. split; [constructor; [by rewrite Ed|constructor]|]. split; [done|]. unfold more, texts. cbn. by rewrite ?app_nil_r.
    + intros (es & bs & (e & es' & Hes & HF & ->)%Forall2_cons_inv_l & Hbs & ->). apply Forall2_nil_inv_l in HF as ->. rewrite Ed in Hes.
      rewrite Hes. eexists. split; [reflexivity|]. exists bs. split; [done|]. unfold more, texts. cbn. by rewrite ?app_nil_r.
  - assert (starts_with (s2l "Effective Date ") (tl_detail l) = false) as Hs.
    { destruct (starts_with _ _); [|done]. destruct H. by apply He. }
    destruct (tl_detail l) as [|x s] eqn:Ed; [|rewrite Hs]; split.
    1,3: intros (b' & Hb & bs & Hbs & ->); injection Hb as <-; exists [], bs; (split; [constructor|]); (split; [done|]);
      unfold more, texts; cbn; by rewrite ?app_nil_r.
    1,2: intros (es & bs & ->%Forall2_nil_inv_l & Hbs & ->); (eexists; split; [reflexivity|]); exists bs; (split; [done|]);
      unfold more, texts; cbn; by rewrite ?app_nil_r.
Qed.
Lemma last_app_or {A} (l k : list A) : last (l ++ k) = or_else (last k) (last l).
Proof.
  destruct k as [|x k _] using rev_ind; [by rewrite app_nil_r|]. by rewrite app_assoc, !last_snoc.
Qed.
Lemma continue_lines E ho ns b prev c ts ls a' : Forall continues ls →
  feed_all E ho (Accumulator ns (Some b) prev c ts) ls = Ok a' ↔
  ∃ es bs, Forall2 (λ l e, pe_effective E (tl_detail l) = Some e) (filter effective_line ls) es ∧
    Forall2 (reads_amount E) (omap tl_balance ls) bs ∧
    a' = Accumulator ns (Some (more b (last es) (texts ls) (last bs))) (default prev (tl_date <$> last ls)) c ts.
Proof.
  intros Hc. revert b prev. induction Hc as [|l ls Hl Hc IH]; intros b prev; cbn [feed_all].
  - split.
    + intros [= <-]. exists [], []. split; [constructor|]. split; [constructor|]. unfold more, texts. cbn. rewrite app_nil_r. by destruct b.
    + intros (es & bs & ->%Forall2_nil_inv_l & ->%Forall2_nil_inv_l & ->). unfold more, texts. cbn. rewrite app_nil_r. by destruct b.
  - assert (default prev (tl_date <$> last (l :: ls)) = default (tl_date l) (tl_date <$> last ls)) as ->.
    { rewrite last_cons. by destruct (last ls). }
    assert (texts (l :: ls) = texts [l] ++ texts ls) as Ht.
    { rewrite !texts_cons. unfold texts at 2. cbn [filter list_filter fmap list_fmap mjoin list_join]. by rewrite app_nil_r. }
    assert (filter effective_line (l :: ls) = filter effective_line [l] ++ filter effective_line ls) as -> by (by rewrite <- filter_app).
    assert (omap tl_balance (l :: ls) = option_list (tl_balance l) ++ omap tl_balance ls) as ->.
    { cbn. by destruct (tl_balance l). }
    rewrite rbind_ok. split.
    + intros (a1 & (es & bs & H1 & H2 & ->)%continue_line & H); [|done]. apply IH in H as (es' & bs' & H3 & H4 & ->).
      exists (es ++ es'), (bs ++ bs'). split; [by apply Forall2_app|]. split; [by apply Forall2_app|].
      by rewrite more_more, Ht, !last_app_or.
    + intros (es & bs & (es1 & es2 & HE1 & HE2 & ->)%Forall2_app_inv_l & (bs1 & bs2 & HB1 & HB2 & ->)%Forall2_app_inv_l & ->).
      eexists. split; [apply continue_line; eauto|]. apply IH. exists es2, bs2. split; [done|]. split; [done|].
      by rewrite more_more, Ht, !last_app_or.
Qed.

Definition flushed (ho : hash_order) (ns : str) (cur : option trn_builder) (tc : list transaction) : Prop :=
  match cur with None => tc = [] | Some b => ∃ t, build_trn ho ns b = Ok t ∧ tc = [t] end.
Lemma flush_spec ho ns cur prev c ts a' : flush_transaction ho (Accumulator ns cur prev c ts) = Ok a' ↔
  ∃ tc, flushed ho ns cur tc ∧ a' = Accumulator ns None prev c (ts ++ tc).
Proof.
  unfold flush_transaction, flushed. destruct cur as [b|]; cbn [ac_current ac_ns ac_prev_date ac_counter ac_trns].
  - rewrite rbind_ok. split.
    + intros (t & Ht & [= <-]). eauto.
    + intros (tc & (t & Ht & ->) & ->). eauto.
  - split.
    + intros [= <-]. exists []. by rewrite app_nil_r.
    + intros (tc & -> & ->). by rewrite app_nil_r.
Qed.
(** The line that starts a transaction with number [n]. *)
Definition start_reads (E : pdf_env) (l : trn_line) (d : date) (a : amount) (ty : trn_type) : Prop :=
  tl_date l = Some d ∧ d_neg (a_quantity a) = false ∧ ∃ s, reads_amount E s a ∧
    match ty with Payment => tl_payment l = Some s ∧ tl_receipt l = None | Receipt => tl_payment l = None ∧ tl_receipt l = Some s end.
Definition next_number (prev : option date) (n : nat) (l : trn_line) : nat := if decide (tl_date l = prev) then S n else 0.
Lemma start_line E ho ns cur prev n ts l a' : starts l → (Z.of_nat n ≤ I32_MAX)%Z →
  feed_line E ho (Accumulator ns cur prev (Z.of_nat n) ts) l = Ok a' ↔
  ∃ tc d a ty bs, flushed ho ns cur tc ∧ start_reads E l d a ty ∧ (Z.of_nat (next_number prev n l) ≤ I32_MAX)%Z ∧
    Forall2 (reads_amount E) (option_list (tl_balance l)) bs ∧
    a' = Accumulator ns (Some (TrnBuilder d (Z.of_nat (next_number prev n l)) a ty None (tl_detail l) (last bs)))
      (tl_date l) (Z.of_nat (next_number prev n l)) (ts ++ tc).
Proof.
  intros Hst Hn.
  assert (∀ s ty, (match ty with Payment => tl_payment l = Some s ∧ tl_receipt l = None | Receipt => tl_payment l = None ∧ tl_receipt l = Some s end) →
    (let! a := start_transaction E ho (Accumulator ns cur prev (Z.of_nat n) ts) l s ty in end_line E a l) = Ok a' ↔
     ∃ tc d a ty bs, flushed ho ns cur tc ∧ start_reads E l d a ty ∧ (Z.of_nat (next_number prev n l) ≤ I32_MAX)%Z ∧
    Forall2 (reads_amount E) (option_list (tl_balance l)) bs ∧
    a' = Accumulator ns (Some (TrnBuilder d (Z.of_nat (next_number prev n l)) a ty None (tl_detail l) (last bs)))
      (tl_date l) (Z.of_nat (next_number prev n l)) (ts ++ tc)) as Hgo.
  { intros s ty Hty. unfold start_transaction. rewrite rbind_ok. split.
    - intros (a1 & H1 & H2). apply rbind_ok in H1 as (a2 & (tc & Htc & ->)%flush_spec & H1). cbn [ac_current ac_ns ac_prev_date ac_counter ac_trns] in H1.
      apply rbind_ok in H1 as (n' & Hn' & H1). apply rbind_ok in H1 as (a & Ha%parse_amount_spec & H1). apply rbind_ok in H1 as (b & Hb & H1). injection H1 as <-.
      unfold builder_of in Hb. destruct (tl_date l) as [d|] eqn:Ed; [|done]. destruct (d_neg (a_quantity a)) eqn:En; [done|]. injection Hb as <-.
      apply end_line_spec in H2 as (bs & Hbs & ->).
      assert (n' = Z.of_nat (next_number prev n l) ∧ (Z.of_nat (next_number prev n l) ≤ I32_MAX)%Z) as [-> Hn1].
      { unfold next_number. rewrite Ed. case_bool_decide as Hd.
        - rewrite decide_True by done. destruct (Z.eqb_spec (Z.of_nat n) I32_MAX); [done|]. injection Hn' as <-. lia.
        - rewrite decide_False by done. injection Hn' as <-. split; [done|]. unfold I32_MAX. lia. }
      exists tc, d, a, ty, bs. split; [done|]. split; [split; [done|]; split; [done|]; by exists s|]. split; [done|]. split; [done|].
      rewrite Ed. f_equal. f_equal. unfold more. cbn. rewrite app_nil_r. by destruct (last bs).
    - intros (tc & d & a & ty' & bs & Htc & (Hd & Hneg & s' & Ha & Hty') & Hmax & Hbs & ->).
      assert (ty' = ty ∧ s' = s) as [-> ->] by (destruct ty, ty'; naive_solver).
      eexists. split.
      + apply rbind_ok. eexists. split; [apply flush_spec; eauto|]. cbn [ac_current ac_ns ac_prev_date ac_counter ac_trns]. apply rbind_ok. exists (Z.of_nat (next_number prev n l)). split.
        { unfold next_number in *. case_bool_decide as Hdd.
          - rewrite decide_True in * by done. destruct (Z.eqb_spec (Z.of_nat n) I32_MAX); [lia|]. f_equal. lia.
          - by rewrite decide_False. }
        apply rbind_ok. exists a. split; [by apply parse_amount_spec|]. apply rbind_ok. eexists. split; [|reflexivity].
        unfold builder_of. by rewrite Hd, Hneg.
      + apply end_line_spec. exists bs. split; [done|]. f_equal. f_equal. unfold more. cbn. rewrite app_nil_r. by destruct (last bs). }
  unfold feed_line. destruct (tl_payment l) as [s|] eqn:Ep, (tl_receipt l) as [s'|] eqn:Er.
  - split; [done|]. intros (tc & d & a & ty & bs & _ & (_ & _ & x & _ & Hx) & _). destruct ty; naive_solver.
  - apply (Hgo s Payment). done.
  - apply (Hgo s' Receipt). done.
  - unfold starts in Hst. naive_solver.
Qed.

(** The builder of a whole group. *)
Definition builds (E : pdf_env) (n : nat) (g : group) (b : trn_builder) : Prop :=
  ∃ d a ty es bs, start_reads E g.1 d a ty ∧
    Forall2 (λ l e, pe_effective E (tl_detail l) = Some e) (filter effective_line g.2) es ∧
    Forall2 (reads_amount E) (omap tl_balance (group_lines g)) bs ∧
    b = TrnBuilder d (Z.of_nat n) a ty (last es) (group_description g) (last bs).
Fixpoint gives (E : pdf_env) (ho : hash_order) (ns : str) (prev : option date) (n : nat) (gs : list group) (ts : list transaction) : Prop :=
  match gs, ts with
  | [], [] => True
  | g :: gs, t :: ts => ∃ b, (Z.of_nat (next_number prev n g.1) ≤ I32_MAX)%Z ∧ builds E (next_number prev n g.1) g b ∧
      build_trn ho ns b = Ok t ∧
      gives E ho ns (default (tl_date g.1) (tl_date <$> last g.2)) (next_number prev n g.1) gs ts
  | _, _ => False
  end.
Lemma feed_group E ho ns cur prev n ts g a' : starts g.1 → Forall continues g.2 → (Z.of_nat n ≤ I32_MAX)%Z →
  feed_all E ho (Accumulator ns cur prev (Z.of_nat n) ts) (group_lines g) = Ok a' ↔
  ∃ tc b, flushed ho ns cur tc ∧ (Z.of_nat (next_number prev n g.1) ≤ I32_MAX)%Z ∧ builds E (next_number prev n g.1) g b ∧
    a' = Accumulator ns (Some b) (default (tl_date g.1) (tl_date <$> last g.2)) (Z.of_nat (next_number prev n g.1)) (ts ++ tc).
Proof.
  destruct g as [l ls]. cbn [fst snd]. intros Hs Hc Hn. unfold group_lines. cbn [fst snd feed_all]. rewrite rbind_ok.
  assert (omap tl_balance (l :: ls) = option_list (tl_balance l) ++ omap tl_balance ls) as Hom.
  { cbn. by destruct (tl_balance l). }
  split.
  - intros (a1 & (tc & d & a & ty & bs & Htc & Hr & Hmax & Hbs & ->)%start_line & H2); [|done|done].
    apply continue_lines in H2 as (es & bs' & Hes & Hbs' & ->); [|done]. eexists tc, _. split; [done|]. split; [done|]. split; [|reflexivity].
    exists d, a, ty, es, (bs ++ bs'). split; [done|]. split; [done|]. split.
    + unfold group_lines. cbn [fst snd]. rewrite Hom. by apply Forall2_app.
    + unfold more, group_description. cbn [fst snd tb_date tb_counter tb_amount tb_type tb_effective tb_description tb_balance].
      rewrite join_texts, last_app_or. f_equal. by destruct (last es).
  - intros (tc & b & Htc & Hmax & (d & a & ty & es & bs & Hr & Hes & Hbs & ->) & ->). cbn [fst snd] in *.
    unfold group_lines in Hbs. cbn [fst snd] in Hbs. rewrite Hom in Hbs. apply Forall2_app_inv_l in Hbs as (bs1 & bs2 & H1 & H2 & ->).
    eexists. split; [apply start_line; [done|done|]; eexists tc, d, a, ty, bs1; eauto 10|]. apply continue_lines; [done|]. exists es, bs2.
    split; [done|]. split; [done|]. unfold more, group_description. cbn [fst snd tb_date tb_counter tb_amount tb_type tb_effective tb_description tb_balance].
    rewrite join_texts, last_app_or. f_equal. f_equal. f_equal. by destruct (last es).
Qed.
Lemma groups_spec E ho ns cur prev n ts gs ts' : Forall (λ g, starts g.1 ∧ Forall continues g.2) gs → (Z.of_nat n ≤ I32_MAX)%Z →
  (∃ a', feed_all E ho (Accumulator ns cur prev (Z.of_nat n) ts) (gs ≫= group_lines) = Ok a' ∧ acc_build ho a' = Ok ts') ↔
  ∃ tc tn, flushed ho ns cur tc ∧ ts' = ts ++ tc ++ tn ∧ gives E ho ns prev n gs tn.
Proof.
  intros Hgs. revert cur prev n ts. induction Hgs as [|g gs [Hs Hc] Hgs IH]; intros cur prev n ts Hn.
  - cbn [mbind list_bind feed_all gives]. split.
    + intros (a' & [= <-] & H). unfold acc_build in H. apply rbind_ok in H as (a1 & (tc & Htc & ->)%flush_spec & [= <-]).
      exists tc, []. by rewrite app_nil_r.
    + intros (tc & [|t tn] & Htc & -> & Hg); [|done]. eexists. split; [done|]. unfold acc_build. apply rbind_ok. eexists. split; [apply flush_spec; eauto|].
      cbn. by rewrite app_nil_r.
  - rewrite bind_cons. split.
    + intros (a' & Hf & Hb). rewrite feed_all_app in Hf. apply rbind_ok in Hf as (a1 & (tc & b & Htc & Hmax & Hb1 & ->)%feed_group & Hf); [|done..].
      destruct (proj1 (IH _ _ _ _ Hmax) (ex_intro _ _ (conj Hf Hb))) as (tc' & tn & (t & Ht & ->) & -> & Hg).
      exists tc, (t :: tn). split; [done|]. split; [by rewrite <- !app_assoc|]. cbn [gives]. eauto.
    + intros (tc & tn & Htc & -> & Hg). destruct tn as [|t tn]; [done|]. cbn [gives] in Hg. destruct Hg as (b & Hmax & Hb & Ht & Hg).
      destruct (proj2 (IH (Some b) (default (tl_date g.1) (tl_date <$> last g.2)) (next_number prev n g.1) (ts ++ tc) Hmax)) as (a' & Ha' & Hacc).
      { exists [t], tn. split; [by exists t|]. split; [by rewrite <- app_assoc|done]. }
      exists a'. split; [|exact Hacc]. rewrite feed_all_app. apply rbind_ok. eexists. split; [apply feed_group; [done|done|done|]; eauto 10|]. done.
Qed.
Lemma skip_lines E ho ns prev c ts ls : Forall continues ls →
  feed_all E ho (Accumulator ns None prev c ts) ls = Ok (Accumulator ns None prev c ts).
Proof.
  induction 1 as [|l ls [Hp Hr] Hl IH]; [done|]. cbn [feed_all]. unfold feed_line. rewrite Hp, Hr. cbn [ac_current rbind]. apply IH.
Qed.
(** Everything: the lines of the statement, their groups and the transactions. *)
Lemma import_lines E ho o doc ns ts : pdf_import E ho o doc = Ok (ns, ts) ↔
  ∃ name ls skip gs, find_account_name doc = Some name ∧ make_namespace o name = Ok ns ∧ statement_lines E doc ls ∧
    grouped ls skip gs ∧ gives E ho ns None 0 gs ts.
Proof.
  unfold pdf_import. destruct (find_account_name doc) as [name|]; [|split; [done|naive_solver]].
  rewrite rbind_ok. split.
  - intros (ns' & Hns & H). apply rbind_ok in H as (a & (ls & Hls & Ha)%statement_fed & H). apply rbind_ok in H as (ts' & Hts & [= <- <-]).
    destruct (grouping ls) as (skip & gs & Hg). exists name, ls, skip, gs. split; [done|]. split; [done|]. split; [done|]. split; [done|].
    destruct Hg as (-> & Hskip & Hgs). rewrite feed_all_app in Ha. apply rbind_ok in Ha as (a1 & Ha1 & Ha).
    unfold pdf_acc_new in Ha1. rewrite skip_lines in Ha1 by done. injection Ha1 as <-.
    destruct (proj1 (groups_spec E ho ns' None None 0 [] gs ts' Hgs ltac:(by vm_compute)) (ex_intro _ _ (conj Ha Hts))) as (tc & tn & -> & -> & Hgv). done.
  - intros (name' & ls & skip & gs & [= <-] & Hns & Hls & Hg & Hgv). exists ns. split; [done|].
    destruct Hg as (-> & Hskip & Hgs).
    destruct (proj2 (groups_spec E ho ns None None 0 [] gs ts Hgs ltac:(by vm_compute))) as (a & Ha & Hts).
    { exists [], ts. done. }
    apply rbind_ok. exists a. split.
    + apply statement_fed. eexists. split; [done|]. rewrite feed_all_app. unfold pdf_acc_new. by rewrite skip_lines.
    + by rewrite Hts.
Qed.
