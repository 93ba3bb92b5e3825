(** A PDF statement. *)
From Verif Require Import MergeClaims.
From Verif Require Import Base Types SpecBase CommentModel MergeModel Sha1 FingerprintModel NwCsvModel PaypalModel
  CommentClaims FingerprintClaims ImportClaims BaseProofs CommentExamples ImportLaws TestsImport ImportExamples OcrModel OcrClaims OcrProofs
  PdfModel PdfClaims PdfTable PdfFold PdfLaws PdfLaws2.
From Coq Require Import Lia.
Local Open Scope nat_scope.

Fixpoint find_text {A} (s : str) (l : list (string * A)) : option A :=
  match l with [] => None | (k, x) :: l => if str_eqb s (s2l k) then Some x else find_text s l end.
Definition pdf_ex_env : pdf_env := PdfEnv
  (λ s, find_text s [("10.00", Dec false 2 1000); ("1250.00", Dec false 2 125000); ("90.00", Dec false 2 9000)])%string
  (λ s, find_text s [("2021", 2021%Z)])%string
  (λ s, find_text s [("01", 1%N); ("02", 2%N)])%string
  (λ s, find_text s [("Jan", 1%N)])%string
  (λ s, find_text s [("Effective Date 31 Dec 2020", (2020%Z, 12%N, 31%N))])%string.
Lemma find_text_in {A} s (l : list (string * A)) x : find_text s l = Some x → x ∈ l.*2.
Proof.
  induction l as [|[k y] l IH]; cbn [find_text]; [done|]. destruct (str_eqb _ _); [intros [= <-]; left|]. intros H. right. by apply IH.
Qed.
Lemma pdf_ex_env_ok : env_ok pdf_ex_env.
Proof.
  intros s q Hq%find_text_in. cbn in Hq. rewrite !elem_of_cons in Hq. destruct Hq as [->|[->|[->|[]%elem_of_nil]]]; split; cbn; lia.
Qed.

(** Words of a line by column: date, details, payments, receipts, balance. *)
Definition words_at (x : Z) (ws : list string) : list (Z * string) := imap (λ i w, (x + 40 * Z.of_nat i, w)%Z) ws.
Definition ex_line (num top : Z) (ws : list (Z * string)) : line :=
  Line num top 10 (imap (λ i p, Word (Z.of_nat i + 1) p.1 30 (s2l p.2)) ws).
Definition row_words (d t p r b : list string) : list (Z * string) :=
  words_at 0 d ++ words_at 100 t ++ words_at 500 p ++ words_at 600 r ++ words_at 700 b.
Definition head_line (num top : Z) : line :=
  Line num top 10 [Word 1 0 80 (s2l "Date"); Word 2 100 60 (s2l "Details"); Word 3 500 60 (s2l "Payments"); Word 4 600 60 (s2l "Receipts"); Word 5 700 60 (s2l "Balance")].
Definition ex_page (num : Z) (paras : list (list line)) : page :=
  Page num [Block 1 (imap (λ i ls, Paragraph (Z.of_nat i + 1) ls) paras)].
Local Open Scope string_scope.
Definition ex_account : list line := [ex_line 1 10 (words_at 0 ["Account"; "Number"; "12-34-56"; "12345678"])].
Definition ref_line (num top : Z) : line := ex_line num top (row_words [] ["Reference"] [] [] []).
(** The line [Reference] of the second transaction is at the end of the first
    page or at the top of the second one. *)
Definition ex_table1 (split : bool) : list line :=
  [head_line 1 40; ex_line 2 50 (row_words ["2021"] [] [] [] []); ex_line 3 60 (row_words ["01"; "Jan"] ["Employer"] [] ["1,250.00"] []);
   ex_line 4 70 (row_words [] ["Effective"; "Date"; "31"; "Dec"; "2020"] [] [] []);
   ex_line 5 80 (row_words ["02"; "Jan"] ["Shop"] ["10.00"] [] ["90.00"])] ++
  (if split then [] else [ref_line 6 90]) ++
  [ex_line (if split then 6 else 7) 200 (row_words [] ["Not"; "a"; "row"] [] [] [])].
Definition ex_table2 (split : bool) : list line :=
  let n := if split then 1%Z else 0%Z in
  [head_line 1 40; ex_line 2 50 (row_words ["2021"] [] [] [] [])] ++ (if split then [ref_line 3 60] else []) ++
  [ex_line (3 + n) 70 (row_words ["02"; "Jan"] ["Shop"] ["10.00"] [] []); ref_line (4 + n) 80].
Definition ex_doc (split : bool) : document := [ex_page 1 [ex_account; ex_table1 split]; ex_page 2 [ex_table2 split]].
Local Close Scope string_scope.
Local Open Scope nat_scope.

Definition pdf_trns (doc : document) : list transaction :=
  match pdf_import pdf_ex_env default_order (NsFixed (s2l "cur")) doc with Ok (_, ts) => ts | _ => [] end.
Definition pdf_lines (doc : document) : list trn_line :=
  (doc ≫= find_in_page) ≫= λ t, match read_lines pdf_ex_env t with Ok ls => upto_gap None ls | _ => [] end.
Definition ex_cur : fp_namespace_opt := NsFixed (s2l "cur").
Lemma pdf_lines_spec doc : forallb (λ t, match read_lines pdf_ex_env t with Ok _ => true | _ => false end) (doc ≫= find_in_page) = true →
  statement_lines pdf_ex_env doc (pdf_lines doc).
Proof.
  intros H. apply statement_lines_model. unfold pdf_lines. set (ts := doc ≫= find_in_page) in *. clearbody ts.
  exists ((λ t, match read_lines pdf_ex_env t with Ok ls => ls | _ => [] end) <$> ts).
  exists (upto_gap None <$> ((λ t, match read_lines pdf_ex_env t with Ok ls => ls | _ => [] end) <$> ts)).
  induction ts as [|t ts IH]; [split; [constructor|]; split; [constructor|done]|].
  cbn [forallb] in H. apply andb_true_iff in H as [H1 H2]. destruct (IH H2) as (I1 & I2 & I3). rewrite bind_cons, !fmap_cons.
  destruct (read_lines pdf_ex_env t) as [ls| |] eqn:E; try done. split; [by constructor|]. split; [constructor; [by apply before_gap_upto|done]|].
  change (mjoin (?x :: ?l)) with (x ++ mjoin l). by rewrite I3.
Qed.
Definition add_line (l : trn_line) (x : list trn_line * list group) : list trn_line * list group :=
  if decide (starts l) then ([], (l, x.1) :: x.2) else (l :: x.1, x.2).
Definition group_up (ls : list trn_line) : list trn_line * list group := foldr add_line ([], []) ls.
Lemma group_up_spec ls : grouped ls (group_up ls).1 (group_up ls).2.
Proof.
  induction ls as [|l ls (H1 & H2 & H3)]; [split; [done|]; split; constructor|].
  change (group_up (l :: ls)) with (add_line l (group_up ls)). unfold add_line. destruct (group_up ls) as [skip gs]. cbn [fst snd] in *.
  destruct (decide (starts l)) as [Hl|Hl]; cbn [fst snd].
  - split; [|split; [constructor|by constructor]]. rewrite H1, bind_cons. done.
  - split; [by rewrite H1|]. split; [|done]. constructor; [by apply not_starts|done].
Qed.
Definition pdf_groups (doc : document) : list group := (group_up (pdf_lines doc)).2.

Definition messages_of (t : transaction) (n : nat) : list (list N) :=
  omap (λ p, (λ a, pdf_message t n (p_account p) (pa_amount a)) <$> p_amount p) (t_postings t).
Lemma pdf_no_collision_check ts ns : NoDup (sha1 <$> mjoin (zip_with messages_of ts ns)) → ¬ pdf_collides ts ns.
Proof.
  intros Hnd. assert (∀ i t n m, ts !! i = Some t → ns !! i = Some n → posting_message t n m → m ∈ mjoin (zip_with messages_of ts ns)) as Hall.
  { intros i t n m Ht Hn (p & a & Hp & [_ Ha] & ->). apply elem_of_list_join. exists (messages_of t n). split.
    - unfold messages_of. apply elem_of_list_omap. exists p. split; [done|]. by rewrite Ha.
    - apply elem_of_lookup_zip_with. exists i, t, n. done. }
  intros (i & j & t & t' & n & n' & m & m' & Hi & Hj & Hn & Hn' & Hm & Hm' & Hne & E).
  pose proof (Hall _ _ _ _ Hi Hn Hm) as (k & Hk)%elem_of_list_lookup. pose proof (Hall _ _ _ _ Hj Hn' Hm') as (k' & Hk')%elem_of_list_lookup.
  assert (k = k') as ->.
  { eapply (NoDup_lookup _ k k' (sha1 m)); [exact Hnd|..]; rewrite list_lookup_fmap; [by rewrite Hk|by rewrite Hk', E]. }
  rewrite Hk in Hk'. by injection Hk'.
Qed.

(** ** The statement without a transaction over the page break *)
Lemma ex_doc_lines b : statement_lines pdf_ex_env (ex_doc b) (pdf_lines (ex_doc b)).
Proof. apply pdf_lines_spec. by destruct b; vm_compute. Qed.
Lemma ex_doc_imported b : pdf_import pdf_ex_env default_order ex_cur (ex_doc b) = Ok (s2l "cur", pdf_trns (ex_doc b)) ∧
  length (pdf_trns (ex_doc b)) = 3.
Proof. destruct b; (split; [vm_compute; reflexivity|by_compute]). Qed.
Lemma ex_doc_together : together (tl_date <$> (pdf_groups (ex_doc false) ≫= group_lines)).
Proof.
  assert (tl_date <$> (pdf_groups (ex_doc false) ≫= group_lines) =
    let d n := Some (2021%Z, 1%N, n) in [d 1%N; d 1%N; d 2%N; d 2%N; d 2%N; d 2%N]) as -> by (vm_compute; reflexivity).
  intros i j k x Hij Hjk Hi Hk. destruct k as [|[|[|[|[|[|k]]]]]]; [lia|lia|..|done]; cbn in Hk; injection Hk as <-;
    destruct i as [|[|[|[|[|[|i]]]]]]; cbn in Hi; try discriminate Hi; destruct j as [|[|[|[|[|[|j]]]]]]; try lia; done.
Qed.
Lemma ex_doc_no_collision : ¬ pdf_collides (pdf_trns (ex_doc false)) (sequence None 0 (pdf_groups (ex_doc false))).
Proof. apply pdf_no_collision_check. by_compute. Qed.
Lemma ex_doc_texts b t : t ∈ pdf_trns (ex_doc b) → str_ok (t_description t).
Proof.
  intros Ht. assert (t_description t ∈ t_description <$> pdf_trns (ex_doc b)) as H by (apply elem_of_list_fmap; eauto).
  assert (t_description <$> pdf_trns (ex_doc b) = [s2l "Employer"; s2l "Shop Reference"; s2l "Shop Reference"]) as E by (destruct b; vm_compute; reflexivity).
  rewrite E, !elem_of_cons in H. destruct H as [->|[->|[->|[]%elem_of_nil]]]; apply str_ok_check; reflexivity.
Qed.
(** ** With one *)
Lemma ex_split_shared : ∃ p q, all_posts (as_merged (pdf_trns (ex_doc true))) !! 2 = Some p ∧
  all_posts (as_merged (pdf_trns (ex_doc true))) !! 4 = Some q ∧ share_fp p q.
Proof.
  apply (share_at (pdf_trns (ex_doc true)) 2 4 (legacy_tag (builder_build (Builder
    (half_message (2021%Z, 1%N, 2%N) 0 (s2l "Shop Reference") (halves (Amount (Dec true 2 1000) GBP)).1) (s2l "nwpdf") 1 (s2l "cur"))))); vm_compute; reflexivity.
Qed.

(** ** Records *)
Definition record_of (n : node) : ocr_record :=
  match n with
  | NPage p => OcrRecord 1 p 0 0 0 0 0 0 0 0 []
  | NBlock p b => OcrRecord 2 p b 0 0 0 0 0 0 0 []
  | NPar p b q => OcrRecord 3 p b q 0 0 0 0 0 0 []
  | NLine p b q l top height => OcrRecord 4 p b q l 0 0 top 0 height []
  | NWord p b q l w lft width text => OcrRecord 5 p b q l w lft 0 width 0 text
  end.
Definition ex_records_of (doc : document) : list (option ocr_record) := Some ∘ record_of <$> nodes doc.
(** The same, pages first, then blocks and so on. *)
Definition ex_by_level (doc : document) : list (option ocr_record) :=
  [1; 2; 3; 4; 5]%Z ≫= λ k, filter (λ o, or_level <$> o = Some k) (ex_records_of doc).
Lemma record_of_ok n : stands_for (record_of n) n.
Proof. destruct n; cbn; split_and!; done. Qed.

(** ** A word over the edge of two columns *)
Definition cut_doc : document :=
  [ex_page 1 [ex_account; [head_line 1 40; ex_line 2 50 (row_words ["2021"%string] [] [] [] []);
    ex_line 3 60 (row_words ["01"; "Jan"]%string ["Shop"%string] [] [] [] ++ [(590%Z, "10.00"%string)])]]].
Lemma cut_word : ∃ E doc ls l w, env_ok E ∧ statement_lines E doc ls ∧ l ∈ ls ∧
  tl_payment l = Some (wd_text w) ∧ tl_receipt l = Some (wd_text w) ∧ (∃ x, x ∈ doc_lines doc ∧ w ∈ ln_words x) ∧
  ∀ ho o out, pdf_import E ho o doc ≠ Ok out.
Proof.
  pose (w := Word 4 590 30 (s2l "10.00")).
  pose (l := TrnLine (Some (2021%Z, 1%N, 1%N)) (s2l "Shop") (Some (s2l "10.00")) (Some (s2l "10.00")) None 60 10).
  assert (pdf_lines cut_doc = [l]) as E by (vm_compute; reflexivity).
  assert (statement_lines pdf_ex_env cut_doc [l]) as Hl.
  { rewrite <- E. apply pdf_lines_spec. vm_compute. reflexivity. }
  exists pdf_ex_env, cut_doc, [l], l, w. split; [apply pdf_ex_env_ok|]. split; [exact Hl|]. split; [left|]. split; [done|]. split; [done|]. split.
  - assert (∃ x, doc_lines cut_doc !! 3 = Some x ∧ ln_words x !! 3 = Some w) as (x & H1 & H2) by (eexists; split; vm_compute; reflexivity).
    exists x. split; by eapply elem_of_list_lookup_2.
  - intros ho o out. by apply (c66_both pdf_ex_env ho o cut_doc [l] l); [|left|..].
Qed.
