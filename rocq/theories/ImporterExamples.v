(** Programs for the examples beside C95-C97. *)
From stdpp Require Import gmap list pretty.
From Verif Require Import MergeClaims.
From Verif Require Import Base Types SpecBase CommentModel MergeModel CmdModel Sha1 FingerprintModel NwCsvModel TzModel PaypalModel
  BaseProofs OcrModel OcrClaims PdfModel PdfExamples CmdClaims CmdExamples ImporterModel ImporterClaims ImporterLaws.
From Coq Require Import Lia.
Local Open Scope nat_scope.

(** A program that recognises: it reads the list, drops the directory from each
    line, and writes down the images one after the other, each with its end marked. *)
Definition demo_dir : str := s2l "/tmp/x".
Definition demo_names (text : str) : list str := (λ l, drop (length demo_dir + 1) l) <$> removelast (split_on NL text).
Definition demo_write (images : list str) : str := images ≫= λ g, map (λ c, (c + 1)%N) g ++ [0%N].
Definition demo_read (text : str) : list str := map (map (λ c, (c - 1)%N)) (removelast (split_on 0%N text)).
Definition demo_ocr (d : tmpfiles) : option (Z * tmpfiles) :=
  match d !! s2l "png-files.txt" with
  | Some text => Some (0%Z, <[s2l "ocr.tsv" := demo_write (omap (λ n, d !! n) (demo_names text))]> d)
  | None => None
  end.
Lemma demo_ocr_some d text : d !! s2l "png-files.txt" = Some text →
  demo_ocr d = Some (0%Z, <[s2l "ocr.tsv" := demo_write (omap (λ n, d !! n) (demo_names text))]> d).
Proof. intros H. unfold demo_ocr. destruct (d !! _) as [t|]; [|discriminate]. injection H as ->. done. Qed.
Definition demo_tools (status : Z) (images : list str) (records : nat → str → list ocr_record) : ocr_tools :=
  OcrTools demo_dir false
    (λ _, Some (status, list_to_map (imap (λ i g, (page_name i, g)) images)))
    false
    demo_ocr
    (λ text, Some <$> mjoin (imap records (demo_read text))).

Lemma split_end c l s : c ∉ l → split_on c (l ++ c :: s) = l :: split_on c s.
Proof.
  induction l as [|x l IH]; intros H; cbn [app split_on]; [by rewrite N.eqb_refl|]. apply not_elem_of_cons in H as [H1 H2].
  rewrite (proj2 (N.eqb_neq x c)) by congruence. by rewrite IH.
Qed.
Lemma split_all c ls : Forall (λ l, c ∉ l) ls → removelast (split_on c (ls ≫= λ l, l ++ [c])) = ls.
Proof.
  induction 1 as [|l ls Hl Hls IH]; [done|]. rewrite bind_cons, <- app_assoc. cbn [app]. rewrite split_end by done.
  revert IH. generalize (ls ≫= λ l, l ++ [c]). intros y IH.
  change (removelast (l :: split_on c y)) with (match split_on c y with [] => [] | _ => l :: removelast (split_on c y) end).
  rewrite IH. destruct (split_on c y) eqn:E; [|done]. destruct y as [|x y]; [done|]. cbn [split_on] in E.
  destruct (x =? c)%N; [done|]. by destruct (split_on c y).
Qed.
Lemma demo_read_write images : demo_read (demo_write images) = images.
Proof.
  unfold demo_read, demo_write.
  assert (images ≫= (λ g, map (λ c, (c + 1)%N) g ++ [0%N]) = map (map (λ c, (c + 1)%N)) images ≫= λ l, l ++ [0%N]) as ->.
  { induction images as [|g images IH]; [done|]. cbn [map]. by rewrite !bind_cons, IH. }
  rewrite split_all. 2:{ apply List.Forall_map, Forall_true. intros g (c & Hc & _)%elem_of_list_In%in_map_iff. lia. }
  rewrite map_map. rewrite <- (map_id images) at 2. apply map_ext. intros g.
  rewrite map_map. rewrite <- (map_id g) at 2. apply map_ext. intros c. lia.
Qed.
Lemma demo_names_list (P : str → str → Prop) names imgs : Forall2 (λ n g, 10%N ∉ n ∧ P n g) names imgs →
  demo_names (names ≫= λ n, demo_dir ++ s2l "/" ++ n ++ [10%N]) = names.
Proof.
  intros Hf. unfold demo_names. assert (names ≫= (λ n, demo_dir ++ s2l "/" ++ n ++ [10%N]) = ((λ n, demo_dir ++ s2l "/" ++ n) <$> names) ≫= λ l, l ++ [NL]) as ->.
  { clear. induction names as [|n names IH]; [done|]. by rewrite fmap_cons, !bind_cons, IH, <- !app_assoc. }
  rewrite split_all.
  - rewrite <- list_fmap_compose. rewrite <- (list_fmap_id names) at 2. apply list_fmap_ext. intros n. done.
  - apply Forall_fmap. induction Hf as [|n g names imgs [Hn _] Hf IH]; constructor; [|done]. unfold compose. 
    rewrite !elem_of_app. intros [H|[H|H]]; [| |done].
    + revert H. by apply (bool_decide_unpack _).
    + revert H. by apply (bool_decide_unpack _).
Qed.
Lemma demo_recognises status images records : recognises (demo_tools status images records) records.
Proof.
  intros d names imgs Hd Hf. unfold demo_tools. cbn [ot_tesseract ot_tsv ot_dir] in *. do 3 eexists. split; [by apply demo_ocr_some|].
  split; [apply (lookup_insert (M := gmap str))|]. rewrite demo_read_write. do 3 f_equal.
  match goal with |- context [demo_names ?x] => replace (demo_names x) with names by (symmetry; eapply demo_names_list; exact Hf) end.
  clear Hd. induction Hf as [|n g names imgs [_ Hn] Hf IH]; [done|]. cbn [omap list_omap]. by rewrite Hn, IH.
Qed.
Lemma demo_renders status images records : renders (demo_tools status images records) images.
Proof. by exists status. Qed.
Lemma demo_tmp status images records : tmp_works (demo_tools status images records).
Proof. done. Qed.

(** ** The statement of PdfExamples.v, and one of a hundred and one pages with a word each *)
Definition with_number (n : Z) (p : page) : page := Page n (pg_blocks p).
Definition pages_as (pages : list page) (k : nat) (g : str) : list ocr_record :=
  match g with
  | [c] => match pages !! N.to_nat c with Some p => record_of <$> nodes [with_number (Z.of_nat k + 1) p] | None => [] end
  | _ => []
  end.
Definition ex_images (n : nat) : list str := (λ i, [N.of_nat i]) <$> seq 0 n.
Definition ex_tools (status : Z) : ocr_tools := demo_tools status (ex_images 2) (pages_as (ex_doc false)).
Lemma ex_tools_document status : ocr_document (ex_tools status) default_order = Ok (ex_doc false).
Proof. destruct status; vm_compute; reflexivity. Qed.
(** Only the first page is rendered, and the program says so. *)
Definition broken_tools : ocr_tools := demo_tools 1 (ex_images 1) (pages_as (ex_doc false)).
Lemma broken_document : ocr_document broken_tools default_order = Ok (take 1 (ex_doc false)).
Proof. vm_compute. reflexivity. Qed.

Definition word_page (n : Z) (text : str) : page := Page n [Block 1 [Paragraph 1 [Line 1 0 10 [Word 1 0 10 text]]]].
Definition word_records (k : nat) (g : str) : list ocr_record := record_of <$> nodes [word_page (Z.of_nat k + 1) g].
Definition long_tools : ocr_tools := demo_tools 0 (ex_images 101) word_records.
Definition texts_of (doc : document) : list str := wd_text <$> ((iter_paragraphs doc ≫= pa_lines) ≫= ln_words).
Lemma long_order : rmap texts_of (ocr_document long_tools default_order) =
  Ok ((λ i, [N.of_nat i]) <$> (seq 0 11 ++ [100] ++ seq 11 89)).
Proof. vm_compute. reflexivity. Qed.

Definition broken_run : list event * result unit :=
  import_cmd ex_E (pdf_importer pdf_ex_env broken_tools default_order ex_cur) (Path (s2l "new")) false false ex_w.
Lemma c96_witness : ∃ E X T T0 ho o output w es ns ts ts0 recs g1 g2,
  hash_order_ok ho ∧ tmp_works T ∧ recognises T recs ∧ renders T [g1] ∧ (∀ d, fst <$> ot_convert T d = Some 1%Z) ∧
  tmp_works T0 ∧ recognises T0 recs ∧ renders T0 [g1; g2] ∧
  pdf_importer X T ho o w = ([], Ok (Import ns ts)) ∧ pdf_importer X T0 ho o w = ([], Ok (Import ns (ts ++ ts0))) ∧ ts0 ≠ [] ∧
  import_cmd E (pdf_importer X T ho o) output false false w = (es, Ok tt) ∧ steps w es ≠ w.
Proof.
  exists ex_E, pdf_ex_env, broken_tools, (ex_tools 0), default_order, ex_cur, (Path (s2l "new")), ex_w, broken_run.1,
    (s2l "cur"), (pdf_trns (take 1 (ex_doc false))), (drop (length (pdf_trns (take 1 (ex_doc false)))) (pdf_trns (ex_doc false))),
    (pages_as (ex_doc false)), [0%N], [1%N].
  split; [apply default_order_ok|]. split; [done|]. split; [apply demo_recognises|]. split; [apply (demo_renders 1 [[0%N]])|]. split; [done|].
  split; [done|]. split; [apply demo_recognises|]. split; [apply (demo_renders 0 [[0%N]; [1%N]])|].
  split; [unfold pdf_importer; rewrite broken_document; vm_compute; reflexivity|].
  split; [unfold pdf_importer; rewrite ex_tools_document; vm_compute; reflexivity|].
  split; [vm_compute; discriminate|]. split.
  - rewrite (surjective_pairing (import_cmd _ _ _ _ _ _)) at 1. apply (f_equal (pair _)). vm_compute. reflexivity.
  - intros H. assert (w_files (steps ex_w broken_run.1) !! s2l "new" = w_files ex_w !! s2l "new") as H' by (by rewrite H).
    vm_compute in H'. discriminate.
Qed.
