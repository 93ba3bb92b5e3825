(** The scanners of the model are the regular expressions of the source. *)
From stdpp Require Import list.
From Verif Require Import MergeClaims.
From Verif Require Import Base Types SpecBase BaseProofs StrProofs CommentModel FingerprintModel NwCsvModel TzModel OcrModel PdfModel RegexModel.
From Coq Require Import Lia.
Local Open Scope nat_scope.

Definition is_cls (r : rx) (f : char → bool) : Prop :=
  ∀ p c, rx_run r p c = match p.2 with x :: s => if f x then [((false, s), c)] else [] | [] => [] end.
Lemma cls_class neg items f : (∀ x, xorb neg (existsb (item_match x) items) = f x) → is_cls (XClass neg items) f.
Proof. intros H p c. cbn [rx_run]. destruct p.2 as [|x s]; [done|]. by rewrite H. Qed.

Lemma bind_one {A B} (x : A) (f : A → list B) : [x] ≫= f = f x.
Proof. cbn. by rewrite app_nil_r. Qed.
Lemma star_nil r f b c : is_cls r f → rx_run (XStar r) (b, []) c = [((b, []), c)].
Proof. done. Qed.
Lemma star_cons r f b x (s : str) c : is_cls r f → rx_run (XStar r) (b, x :: s) c =
  if f x then rx_run (XStar r) (false, s) c ++ [((b, x :: s), c)] else [((b, x :: s), c)].
Proof.
  intros H. cbn [rx_run snd length star_run]. rewrite H. cbn [snd]. destruct (f x); [|done].
  rewrite filter_cons. cbn [fst snd length]. rewrite decide_True by lia. rewrite filter_nil, bind_one. done.
Qed.
Lemma bind_app_list {A B} (l k : list A) (f : A → list B) : (l ++ k) ≫= f = (l ≫= f) ++ (k ≫= f).
Proof. induction l as [|x l IH]; [done|]. cbn. rewrite <- app_assoc. by f_equal. Qed.
Lemma bind_bind {A B C} (l : list A) (f : A → list B) (g : B → list C) : (l ≫= f) ≫= g = l ≫= (λ x, f x ≫= g).
Proof. induction l as [|x l IH]; [done|]. rewrite !bind_cons, bind_app_list. by f_equal. Qed.
Lemma fmap_bind_list {A B C} (l : list A) (f : A → B) (g : B → list C) : (f <$> l) ≫= g = l ≫= (λ x, g (f x)).
Proof. induction l as [|x l IH]; [done|]. rewrite fmap_cons, !bind_cons. by f_equal. Qed.
Lemma bind_ext {A B} (l : list A) (f g : A → list B) : (∀ x, f x = g x) → l ≫= f = l ≫= g.
Proof. intros H. induction l as [|x l IH]; [done|]. rewrite !bind_cons, H. by f_equal. Qed.

Definition after (b : bool) (f : char → bool) (s : str) : place := (match take_while f s with [] => b | _ => false end, drop_while f s).
(** Greedy repetition of a class, when what follows cannot begin with it. *)
Lemma star_then r f k b s c : is_cls r f → (∀ b x s c, f x = true → k ((b, x :: s), c) = []) →
  rx_run (XStar r) (b, s) c ≫= k = k (after b f s, c) :> list (place * caps).
Proof.
  intros Hc Hk. revert b. induction s as [|x s IH]; intros b.
  - rewrite (star_nil r f), bind_one by done. done.
  - rewrite (star_cons r f) by done. unfold after. cbn [take_while drop_while]. destruct (f x) eqn:E.
    + rewrite bind_app_list, bind_one, (Hk _ _ _ _ E), app_nil_r, IH. f_equal. unfold after. by destruct (take_while f s).
    + by rewrite bind_one.
Qed.
Lemma plus_then r f k b s c : is_cls r f → (∀ b x s c, f x = true → k ((b, x :: s), c) = []) →
  rx_run (XSeq r (XStar r)) (b, s) c ≫= k =
  match take_while f s with [] => [] | _ => k ((false, drop_while f s), c) end :> list (place * caps).
Proof.
  intros Hc Hk. cbn [rx_run]. rewrite Hc. cbn [snd]. destruct s as [|x s]; [done|]. cbn [take_while drop_while]. destruct (f x) eqn:E; [|done].
  rewrite bind_one. cbn [fst snd]. change (star_run (rx_run r) (length s) (false, s) c) with (rx_run (XStar r) (false, s) c).
  rewrite (star_then r f) by done. f_equal. unfold after. by destruct (take_while f s).
Qed.
Lemma group_then n r k p c : rx_run (XGroup n r) p c ≫= k =
  rx_run r p c ≫= (λ pc, k (pc.1, (n, take (length p.2 - length pc.1.2) p.2) :: pc.2)) :> list (place * caps).
Proof. cbn [rx_run]. apply fmap_bind_list. Qed.
Lemma taken f (s : str) : take (length s - length (drop_while f s)) s = take_while f s.
Proof.
  rewrite <- (take_drop_while f s) at 1 3. rewrite app_length. rewrite Nat.add_sub. apply take_app.
Qed.
(** The whole of the text that is left. *)
Lemma star_end r f b s c : is_cls r f →
  rx_run (XSeq (XStar r) XEnd) (b, s) c = if forallb f s then [((match s with [] => b | _ => false end, []), c)] else [].
Proof.
  intros Hc. cbn [rx_run]. change (star_run (rx_run r) (length (b, s).2) (b, s) c) with (rx_run (XStar r) (b, s) c).
  rewrite (star_then r f); [|done|done]. unfold after. cbn [fst snd]. destruct (drop_while f s) as [|x l] eqn:E.
  - apply drop_while_nil in E. rewrite (take_while_full f s E). replace (forallb f s) with true; [done|]. symmetry. apply forallb_forall.
    intros y Hy%elem_of_list_In. rewrite Forall_forall in E. auto.
  - pose proof (drop_while_head f s x l E) as Hx. replace (forallb f s) with false; [done|]. symmetry. apply not_true_iff_false. intros H.
    rewrite forallb_forall in H. rewrite (H x) in Hx; [done|]. rewrite <- (take_drop_while f s), E. apply elem_of_list_In, elem_of_app. right. left.
Qed.
Lemma cls_then r f k p c : is_cls r f → rx_run r p c ≫= k =
  match p.2 with x :: s => if f x then k ((false, s), c) else [] | [] => [] end :> list (place * caps).
Proof. intros H. rewrite H. destruct p.2 as [|x s]; [done|]. destruct (f x); [|done]. by rewrite bind_one. Qed.

(** Expressions that begin with ^. *)
Lemma anchored r s : rx_find (XSeq XStart r) true [] s = (λ pc, RxMatch [] pc.2 pc.1.2) <$> head (rx_run r (true, s) []).
Proof.
  assert (∀ before s, rx_find (XSeq XStart r) false before s = None) as H.
  { intros before s'. revert before. induction s' as [|x s' IH]; intros before; [done|]. cbn [rx_find]. cbn [rx_run fst]. cbn. apply IH. }
  destruct s as [|x s]; cbn [rx_find]; change (rx_run (XSeq XStart r) ?p []) with ([(p, []:caps)] ≫= λ pc, rx_run r pc.1 pc.2);
    rewrite bind_one; cbn [fst snd]; destruct (rx_run r _ []) as [|[p c] l]; try done; by rewrite ?H.
Qed.

Lemma range_eq a x : ((a <=? x) && (x <=? a))%N = (x =? a)%N.
Proof.
  destruct (N.eqb_spec x a) as [->|H]; [by rewrite N.leb_refl|]. apply not_true_iff_false. intros [H1%N.leb_le H2%N.leb_le]%andb_true_iff. lia.
Qed.
Lemma cls_is a : is_cls (XClass false [IRange a a]) (λ x, (x =? a)%N).
Proof. apply cls_class. intros x. cbn [existsb item_match]. by rewrite xorb_false_l, orb_false_r, range_eq. Qed.
Lemma cls_digit : is_cls (XClass false [IDigit]) rx_digit.
Proof. apply cls_class. intros x. cbn [existsb item_match]. by rewrite xorb_false_l, orb_false_r. Qed.
Lemma cls_tag : is_cls (XClass true [IRange 58%N 58%N; IRange 32%N 32%N]) tag_char.
Proof.
  apply cls_class. intros x. cbn [existsb item_match]. rewrite orb_false_r, !range_eq. unfold tag_char, COLON, SPACE.
  by destruct (x =? 58)%N, (x =? 32)%N.
Qed.
Lemma cls_dot : is_cls (XClass true [IRange 10%N 10%N]) (λ x, negb (x =? NL)%N).
Proof. apply cls_class. intros x. cbn [existsb item_match]. rewrite orb_false_r, range_eq. unfold NL. by destruct (x =? 10)%N. Qed.
Lemma cls_part : is_cls (XClass false [IRange 97%N 122%N; IRange 65%N 90%N; IRange 48%N 57%N; IRange 95%N 95%N; IRange 43%N 43%N; IRange 47%N 47%N]) fp_part_char.
Proof.
  apply cls_class. intros x. cbn [existsb item_match]. rewrite xorb_false_l, orb_false_r, !range_eq. unfold fp_part_char. by rewrite !orb_assoc.
Qed.

(** src/fingerprint.rs:68. *)
Lemma fp_part_regex r s : rx_parse VALID_FP_PART_RX = Some r → rx_is_match r s = fp_part_rx s.
Proof.
  vm_compute (rx_parse _). intros [= <-]. unfold rx_is_match. rewrite anchored, (star_end _ _ _ _ _ cls_part). unfold fp_part_rx.
  by destruct (forallb fp_part_char s).
Qed.

(** src/importers/nationwide_pdf.rs:707,710. *)
Lemma run_seq a b p c : rx_run (XSeq a b) p c = rx_run a p c ≫= λ pc, rx_run b pc.1 pc.2.
Proof. done. Qed.
Lemma acct_regex r s : rx_parse ACCT_NUM_RX = Some r → rx_is_match r s = acct_num_rx s.
Proof.
  vm_compute (rx_parse _). intros [= <-]. unfold rx_is_match. rewrite anchored.
  enough (match rx_run (XSeq (repeat_rx 8 (XClass false [IDigit])) XEnd) (true, s) [] with [] => false | _ => true end = acct_num_rx s) as H.
  { rewrite <- H. unfold repeat_rx. by destruct (rx_run _ _ _). }
  assert (∀ n b, match rx_run (XSeq (repeat_rx (S n) (XClass false [IDigit])) XEnd) (b, s) [] with [] => false | _ => true end =
    bool_decide (length s = S n) && forallb rx_digit s) as H; [|by rewrite H].
  intros n. induction n as [|n IH] in s |- *; intros b.
  - cbn [repeat_rx]. rewrite run_seq, (cls_then _ _ _ _ _ cls_digit). cbn [snd]. destruct s as [|x s]; [done|]. cbn [forallb].
    destruct (rx_digit x); [|cbn [andb]; by rewrite andb_false_r]. cbn [andb rx_run fst snd]. by destruct s.
  - change (repeat_rx (S (S n)) ?a) with (XSeq a (repeat_rx (S n) a)). rewrite run_seq, (run_seq (XClass _ _)), bind_bind, (cls_then _ _ _ _ _ cls_digit).
    cbn [snd fst]. destruct s as [|x s]; [done|]. cbn [forallb]. destruct (rx_digit x); [|cbn [andb]; by rewrite andb_false_r].
    rewrite <- run_seq, IH. cbn [length andb]. f_equal. by apply bool_decide_ext; lia.
Qed.

Lemma seq_assoc a b d p c : rx_run (XSeq (XSeq a b) d) p c = rx_run (XSeq a (XSeq b d)) p c.
Proof. rewrite !run_seq, bind_bind. done. Qed.
Lemma seq_cons r f k b x (s : str) c : is_cls r f → rx_run (XSeq r k) (b, x :: s) c = if f x then rx_run k (false, s) c else [].
Proof. intros H. by rewrite run_seq, (cls_then _ _ _ _ _ H). Qed.
Lemma seq_nil r f k b c : is_cls r f → rx_run (XSeq r k) (b, []) c = [].
Proof. intros H. by rewrite run_seq, (cls_then _ _ _ _ _ H). Qed.
(** A text of fixed form. *)
Fixpoint pre (fs : list (char → bool)) (s : str) : option str :=
  match fs, s with
  | [], _ => Some s
  | f :: fs, x :: s => if f x then pre fs s else None
  | _ :: _, [] => None
  end.
Lemma fixed_run rs fs k b s c : Forall2 is_cls rs fs → rs ≠ [] →
  rx_run (foldr XSeq k rs) (b, s) c = match pre fs s with Some s => rx_run k (false, s) c | None => [] end.
Proof.
  intros H. revert b s. induction H as [|r f rs fs Hc HF IH]; intros b s Hne; [done|]. cbn [foldr pre]. destruct s as [|x s].
  - by rewrite (seq_nil _ _ _ _ _ Hc).
  - rewrite (seq_cons _ _ _ _ _ _ _ Hc). destruct (f x); [|done]. destruct HF; [done|]. by rewrite IH.
Qed.
Ltac split_ifs := repeat match goal with |- context [if rx_digit ?x then _ else _] => destruct (rx_digit x) | |- context [if (?x =? ?y)%N then _ else _] => destruct (x =? y)%N end.
Definition is_char (a x : char) : bool := (x =? a)%N.
Fixpoint flat (r k : rx) : rx := match r with XSeq a b => flat a (flat b k) | _ => XSeq r k end.
Lemma flat_run r k p c : rx_run (flat r k) p c = rx_run (XSeq r k) p c.
Proof.
  revert k p c. induction r as [| | | |a IHa b IHb| | |]; intros k p c; try done. cbn [flat]. rewrite IHa, seq_assoc, !run_seq.
  apply bind_ext. intros pc. apply IHb.
Qed.
Lemma norm_run r p c : rx_run r p c = rx_run (flat r XEmpty) p c.
Proof.
  rewrite flat_run, run_seq. induction (rx_run r p c) as [|[q d] l IH]; [done|]. rewrite bind_cons, <- IH. done.
Qed.
Lemma end_run b s c : rx_run (XSeq XEnd XEmpty) (b, s) c = match s with [] => [((b, []), c)] | _ => [] end.
Proof. by destruct s. Qed.
Lemma sort_regex r s : rx_parse SORT_CODE_RX = Some r → rx_is_match r s = sort_code_rx s.
Proof.
  vm_compute (rx_parse _). intros [= <-]. unfold rx_is_match. rewrite anchored, norm_run. cbn [flat].
  set (d := XClass false [IDigit]). set (m := XClass false [IRange 45%N 45%N]).
  change (XSeq d _) with (foldr XSeq (XSeq XEnd XEmpty) [d; d; m; d; d; m; d; d]).
  pose (fd := rx_digit). pose (fm := is_char 45%N). pose proof cls_digit as Hd. pose proof (cls_is 45%N) as Hm.
  rewrite (fixed_run _ [fd; fd; fm; fd; fd; fm; fd; fd]); [|repeat constructor; assumption|done].
  unfold sort_code_rx, MINUS. unfold fm, fd, is_char. clear.
  do 8 (destruct s as [|? s]; [cbn [pre]; split_ifs; done|]). cbn [pre].
  repeat match goal with
    | |- context [if rx_digit ?x then _ else _] => destruct (rx_digit x); [|rewrite ?andb_false_r; by destruct s]
    | |- context [if (?x =? ?y)%N then _ else _] => destruct (x =? y)%N; [|rewrite ?andb_false_r; by destruct s] end.
  rewrite end_run. by destruct s.
Qed.

(** src/tzabbr.rs:57-72. *)
Lemma group_one n r f k b x (s : str) c : is_cls r f →
  rx_run (XSeq (XGroup n r) k) (b, x :: s) c = if f x then rx_run k (false, s) ((n, [x]) :: c) else [].
Proof.
  intros H. rewrite run_seq, group_then, (cls_then _ _ _ _ _ H). cbn [snd fst]. destruct (f x); [|done].
  do 3 f_equal. cbn [length]. by replace (S (length s) - length s) with 1 by lia.
Qed.
Lemma group_two n r f k b x y (s : str) c : is_cls r f →
  rx_run (XSeq (XGroup n (XSeq r r)) k) (b, x :: y :: s) c = if f x then if f y then rx_run k (false, s) ((n, [x; y]) :: c) else [] else [].
Proof.
  intros H. rewrite run_seq, group_then, run_seq, bind_bind, (cls_then _ _ _ _ _ H). cbn [snd fst]. destruct (f x); [|done].
  rewrite (cls_then _ _ _ _ _ H). cbn [snd fst]. destruct (f y); [|done].
  do 3 f_equal. cbn [length]. by replace (S (S (length s)) - length s) with 2 by lia.
Qed.
Lemma group_one_nil n r f k b c : is_cls r f → rx_run (XSeq (XGroup n r) k) (b, []) c = [].
Proof. intros H. by rewrite run_seq, group_then, (cls_then _ _ _ _ _ H). Qed.
Lemma group_two_short n r f k b s c : is_cls r f → length s < 2 → rx_run (XSeq (XGroup n (XSeq r r)) k) (b, s) c = [].
Proof.
  intros H Hl. rewrite run_seq, group_then, run_seq, bind_bind, (cls_then _ _ _ _ _ H). cbn [snd fst]. destruct s as [|x s]; [done|].
  destruct (f x); [|done]. rewrite (cls_then _ _ _ _ _ H). cbn [snd fst]. destruct s; [done|]. cbn in Hl. lia.
Qed.
Lemma cls_sign : is_cls (XClass false [IRange 45%N 45%N; IRange 43%N 43%N]) (λ x, (x =? 43) || (x =? 45))%N.
Proof. apply cls_class. intros x. cbn [existsb item_match]. rewrite xorb_false_l, orb_false_r, !range_eq. apply orb_comm. Qed.
Lemma cls_09 : is_cls (XClass false [IRange 48%N 57%N]) rx_09.
Proof. apply cls_class. intros x. cbn [existsb item_match]. by rewrite xorb_false_l, orb_false_r. Qed.
(** [captures[n].parse()] for two digits. *)
Definition number (o : option str) : Z := Z.of_N (parse_digits (default [] o)).
Lemma number_two a b : rx_09 a = true → rx_09 b = true → number (Some [a; b]) = two_digits a b.
Proof.
  unfold rx_09, number, two_digits, parse_digits. intros [Ha1%N.leb_le Ha2%N.leb_le]%andb_true_iff [Hb1%N.leb_le Hb2%N.leb_le]%andb_true_iff.
  cbn [default from_option id foldl]. rewrite N2Z.inj_add, N2Z.inj_mul. change (10 * 0)%N with 0%N. by rewrite N.add_0_l.
Qed.
Lemma group_hd n t c : group n ((n, t) :: c) = Some t.
Proof. unfold group, caps. rewrite filter_cons, decide_True by done. done. Qed.
Lemma group_tl n m t c : m ≠ n → group n ((m, t) :: c) = group n c.
Proof. intros H. unfold group, caps. rewrite filter_cons, decide_False by done. done. Qed.
Lemma utc_prefix k b s :
  rx_run (XSeq (XClass false [IRange 85%N 85%N]) (XSeq (XClass false [IRange 84%N 84%N]) (XSeq (XClass false [IRange 67%N 67%N])
    (XSeq (XGroup 1 (XClass false [IRange 45%N 45%N; IRange 43%N 43%N]))
      (XSeq (XGroup 2 (XSeq (XClass false [IRange 48%N 57%N]) (XClass false [IRange 48%N 57%N]))) k))))) (b, s) [] =
  match s with
  | u :: t :: c :: sign :: h1 :: h2 :: rest =>
      if (u =? 85)%N && (t =? 84)%N && (c =? 67)%N && ((sign =? 43)%N || (sign =? 45)%N) && rx_09 h1 && rx_09 h2
      then rx_run k (false, rest) [(2, [h1; h2]); (1, [sign])] else []
  | _ => []
  end.
Proof.
  destruct s as [|u s]; [by rewrite (seq_nil _ _ _ _ _ (cls_is 85%N))|]. rewrite (seq_cons _ _ _ _ _ _ _ (cls_is 85%N)).
  destruct (u =? 85)%N; [|cbn [andb]; by do 5 (destruct s as [|? s]; try done)].
  destruct s as [|t s]; [by rewrite (seq_nil _ _ _ _ _ (cls_is 84%N))|]. rewrite (seq_cons _ _ _ _ _ _ _ (cls_is 84%N)).
  destruct (t =? 84)%N; [|cbn [andb]; by do 4 (destruct s as [|? s]; try done)].
  destruct s as [|c s]; [by rewrite (seq_nil _ _ _ _ _ (cls_is 67%N))|]. rewrite (seq_cons _ _ _ _ _ _ _ (cls_is 67%N)).
  destruct (c =? 67)%N; [|cbn [andb]; by do 3 (destruct s as [|? s]; try done)].
  destruct s as [|g s]; [by rewrite (group_one_nil _ _ _ _ _ _ cls_sign)|]. rewrite (group_one _ _ _ _ _ _ _ _ cls_sign).
  destruct ((g =? 43)%N || (g =? 45)%N); [|cbn [andb]; by do 2 (destruct s as [|? s]; try done)].
  destruct s as [|h1 [|h2 s]]; [by rewrite (group_two_short _ _ _ _ _ _ _ cls_09) by (cbn; lia)..|]. rewrite (group_two _ _ _ _ _ _ _ _ _ cls_09).
  cbn [andb]. by destruct (rx_09 h1), (rx_09 h2).
Qed.
Lemma sign_plus g : bool_decide (Some [g] = Some (s2l "+")) = (g =? 43)%N.
Proof. apply eq_true_iff_eq. rewrite bool_decide_eq_true, N.eqb_eq. split; [by intros [= ->]|by intros ->]. Qed.
Lemma utc_regex r r' s : rx_parse UTC_HOURS_RX = Some r → rx_parse UTC_HOURS_MINS_RX = Some r' →
  utc_offset_rx s =
    match rx_captures r s with
    | Some c => Some (bool_decide (group 1 c = Some (s2l "+")), number (group 2 c), 0%Z)
    | None =>
        match rx_captures r' s with
        | Some c => Some (bool_decide (group 1 c = Some (s2l "+")), number (group 2 c), number (group 3 c))
        | None => None
        end
    end.
Proof.
  vm_compute (rx_parse _). intros [= <-] [= <-]. unfold rx_captures. rewrite !anchored, (norm_run (XSeq (XClass _ _) _)), (norm_run (XSeq (XClass _ _) _)). cbn [flat].
  rewrite !utc_prefix. unfold utc_offset_rx.
  do 6 (destruct s as [|? s]; [done|]).
  destruct (_ && _) eqn:E; [|done]. apply andb_true_iff in E as [[_ H1]%andb_true_iff H2].
  rewrite end_run. destruct s as [|a s].
  - cbn [head fmap option_fmap option_map m_caps snd]. rewrite group_hd, group_tl, group_hd by done. rewrite sign_plus, number_two by done. done.
  - destruct (a =? 58)%N eqn:Ea; rewrite (seq_cons _ _ _ _ _ _ _ (cls_is 58%N)), Ea; [|by destruct s as [|? [|? [|]]]].
    destruct s as [|m1 [|m2 s]]; [by rewrite (group_two_short _ _ _ _ _ _ _ cls_09) by (cbn; lia)..|]. rewrite (group_two _ _ _ _ _ _ _ _ _ cls_09).
    destruct (rx_09 m1) eqn:Hb, (rx_09 m2) eqn:Hc; [|by destruct s..]. rewrite end_run. destruct s; [|done].
    cbn [head fmap option_fmap option_map m_caps snd andb]. rewrite (group_hd 3), (group_tl 2), (group_hd 2), (group_tl 1), (group_tl 1), (group_hd 1) by done. rewrite sign_plus, !number_two by done. done.
Qed.

(** src/importers/nationwide_csv.rs:481. *)
Lemma digit_not a x : rx_digit x = true → rx_digit a = false → (x =? a)%N = false.
Proof. intros H1 H2. apply not_true_iff_false. intros ->%N.eqb_eq. congruence. Qed.
Lemma head_app_some {A} (l k : list A) y : head l = Some y → head (l ++ k) = Some y.
Proof. by destruct l. Qed.
(** The last repetition: the longest match comes first. *)
Lemma star_head r f b s c : is_cls r f → head (rx_run (XStar r) (b, s) c) = Some (after b f s, c).
Proof.
  intros Hc. revert b. induction s as [|x s IH]; intros b; [done|]. rewrite (star_cons r f) by done. unfold after. cbn [take_while drop_while].
  destruct (f x); [|done]. erewrite head_app_some; [|exact (IH false)].
  unfold after. by destruct (take_while f s).
Qed.
Lemma head_fmap {A B} (f : A → B) l : head (f <$> l) = f <$> head l.
Proof. by destruct l. Qed.
Lemma plus_head r f b s c : is_cls r f → head (rx_run (XSeq r (XStar r)) (b, s) c) =
  match take_while f s with [] => None | _ => Some ((false, drop_while f s), c) end.
Proof.
  intros Hc. rewrite run_seq, (cls_then _ _ _ _ _ Hc). cbn [snd]. destruct s as [|x s]; [done|]. cbn [take_while drop_while fst snd]. destruct (f x); [|done].
  rewrite (star_head _ f) by done. unfold after. by destruct (take_while f s).
Qed.
Lemma group_plus_head n r f b s c : is_cls r f → head (rx_run (XGroup n (XSeq r (XStar r))) (b, s) c) =
  match take_while f s with [] => None | _ => Some ((false, drop_while f s), (n, take_while f s) :: c) end.
Proof.
  intros Hc. change (rx_run (XGroup n ?a) ?p ?c) with ((λ pc, (pc.1, (n, take (length p.2 - length pc.1.2) p.2) :: pc.2)) <$> rx_run a p c).
  rewrite head_fmap, (plus_head _ f) by done. pose proof (taken f s) as Ht. destruct (take_while f s) as [|y l]; [done|].
  cbn [fmap option_fmap option_map fst snd]. by rewrite Ht.
Qed.
(** A group of one or more of a class, when what follows cannot begin with it. *)
Lemma group_plus_then n r f k b s c : is_cls r f → (∀ b x s c, f x = true → rx_run k (b, x :: s) c = []) →
  rx_run (XSeq (XGroup n (XSeq r (XStar r))) k) (b, s) c =
  match take_while f s with [] => [] | _ => rx_run k (false, drop_while f s) ((n, take_while f s) :: c) end.
Proof.
  intros Hc Hk. rewrite run_seq, group_then, (plus_then _ f); [|done|intros; by apply Hk]. cbn [fst snd].
  pose proof (taken f s) as Ht. by rewrite Ht.
Qed.
Definition three (c : caps) : option str * option str * option str := (group 1 c, group 2 c, group 3 c).
Definition some3 (g : str * str * str) : option str * option str * option str := (Some g.1.1, Some g.1.2, Some g.2).
Lemma head_bind_one {A B} (l : list A) x (k : A → list B) : l = [x] → head (l ≫= k) = head (k x).
Proof. intros ->. by rewrite bind_one. Qed.
Definition gbp_tail : rx :=
  XSeq (XGroup 2 (XSeq (XClass false [IDigit]) (XStar (XClass false [IDigit]))))
    (XSeq (XClass false [IRange 46%N 46%N]) (XGroup 3 (XSeq (XClass false [IDigit]) (XStar (XClass false [IDigit]))))).
Lemma gbp_tail_head b s c : head (rx_run gbp_tail (b, s) c) =
  match take_while rx_digit s, drop_while rx_digit s with
  | (_ :: _) as pounds, d :: s =>
      if (d =? DOT)%N then
        match take_while rx_digit s with
        | (_ :: _) as pence => Some ((false, drop_while rx_digit s), (3, pence) :: (2, pounds) :: c)
        | [] => None
        end
      else None
  | _, _ => None
  end.
Proof.
  unfold gbp_tail. rewrite (group_plus_then _ _ rx_digit); [|exact cls_digit|].
  - destruct (take_while rx_digit s) as [|y l]; [done|]. destruct (drop_while rx_digit s) as [|d s']; [by rewrite (seq_nil _ _ _ _ _ (cls_is 46%N))|].
    rewrite (seq_cons _ _ _ _ _ _ _ (cls_is 46%N)). unfold DOT. destruct (d =? 46)%N; [|done].
    rewrite (group_plus_head _ _ _ _ _ _ cls_digit). by destruct (take_while rx_digit s').
  - intros b' x s' c' Hx. rewrite (seq_cons _ _ _ _ _ _ _ (cls_is 46%N)). by rewrite (digit_not 46%N x Hx).
Qed.
(** Without a digit first there is no match. *)
Lemma gbp_tail_none b x s c : rx_digit x = false → rx_run gbp_tail (b, x :: s) c = [].
Proof.
  intros Hx. assert (head (rx_run gbp_tail (b, x :: s) c) = None) as H; [|by destruct (rx_run _ _ _)].
  rewrite gbp_tail_head. cbn [take_while drop_while]. by rewrite Hx.
Qed.
Lemma gbp_here b s : (λ pc, three pc.2) <$> head (rx_run (XSeq (XClass false [IRange 163%N 163%N])
    (XSeq (XGroup 1 (XAlt (XClass false [IRange 45%N 45%N]) XEmpty)) gbp_tail)) (b, s) []) = some3 <$> gbp_rx_here s.
Proof.
  destruct s as [|p s]; [done|]. rewrite (seq_cons _ _ _ _ _ _ _ (cls_is 163%N)). unfold gbp_rx_here, POUND, MINUS. destruct (p =? 163)%N; [|done].
  rewrite run_seq, group_then.
  assert (rx_run (XAlt (XClass false [IRange 45%N 45%N]) XEmpty) (false, s : str) [] =
    match s with m :: s' => if (m =? 45)%N then [((false, s'), []); ((false, s), [])] else [((false, s), [])] | [] => [((false, s), [])] end) as ->.
  { change (rx_run (XAlt ?x ?y) ?p ?c) with (rx_run x p c ++ [(p, c)]). rewrite (cls_is 45%N). cbn [snd]. destruct s as [|m s']; [done|]. by destruct (m =? 45)%N. }
  destruct s as [|m s'].
  - rewrite bind_one. cbn [fst snd]. rewrite gbp_tail_head. done.
  - destruct (m =? 45)%N eqn:Em.
    + apply N.eqb_eq in Em as ->. rewrite bind_cons, bind_one. cbn [fst snd]. rewrite (gbp_tail_none _ 45%N s') by by_compute. rewrite app_nil_r.
      rewrite gbp_tail_head. cbn [length]. replace (S (length s') - length s') with 1 by lia.
      destruct (take_while rx_digit s'); [done|]. destruct (drop_while rx_digit s') as [|d r]; [done|]. destruct (d =? DOT)%N; [|done].
      destruct (take_while rx_digit r); done.
    + rewrite bind_one. cbn [fst snd]. rewrite gbp_tail_head, Nat.sub_diag.
      destruct (take_while rx_digit (m :: s')); [done|]. destruct (drop_while rx_digit (m :: s')) as [|d r]; [done|]. destruct (d =? DOT)%N; [|done].
      destruct (take_while rx_digit r); done.
Qed.
Lemma find_eq r b before s : rx_find r b before s =
  match head (rx_run r (b, s) []) with
  | Some pc => Some (RxMatch (reverse before) pc.2 pc.1.2)
  | None => match s with [] => None | x :: s => rx_find r false (x :: before) s end
  end.
Proof. destruct s; cbn [rx_find]; by destruct (rx_run _ _ _) as [|[? ?] ?]. Qed.
Lemma gbp_regex r s : rx_parse GBP_RX = Some r → three <$> rx_captures r s = some3 <$> gbp_rx s.
Proof.
  vm_compute (rx_parse _). intros [= <-]. unfold rx_captures. fold gbp_tail.
  match goal with |- context [rx_find ?r] => set (g := r) end.
  generalize true, (@nil char).
  assert (∀ s b, ∃ h, head (rx_run g (b, s) []) = h ∧ (λ pc, three pc.2) <$> h = some3 <$> gbp_rx_here s) as Hg.
  { intros ? b. eexists. split; [reflexivity|apply gbp_here]. }
  clearbody g. induction s as [|x s IH]; intros b before; rewrite find_eq; cbn [gbp_rx].
  - destruct (Hg [] b) as (h & -> & Hs). by destruct h.
  - destruct (Hg (x :: s) b) as (h & -> & Hs). destruct h as [pc|], (gbp_rx_here (x :: s)) as [q|]; try done; apply IH.
Qed.

(** src/comment.rs:43. *)
Definition value_groups (g : str * option str) : option str * option str := (Some g.1, g.2).
Lemma dot_end b s c : rx_run (XSeq (XGroup 2 (XSeq (XClass true [IRange 10%N 10%N]) (XStar (XClass true [IRange 10%N 10%N])))) XEnd) (b, s) c =
  match s with [] => [] | _ => if existsb (λ x : char, x =? NL)%N s then [] else [((false, []), (2, s) :: c)] end.
Proof.
  rewrite run_seq, group_then, (plus_then _ _ _ _ _ _ cls_dot); [|by intros]. cbn [fst snd].
  pose proof (taken (λ x : char, negb (x =? NL)%N) s) as Ht.
  assert (match drop_while (λ x : char, negb (x =? NL)%N) s with [] => false | _ => true end = existsb (λ x : char, x =? NL)%N s) as <-.
  { clear. induction s as [|x s IH]; [done|]. cbn [drop_while existsb]. by destruct (x =? NL)%N. }
  rewrite Ht. cbn [rx_run snd]. destruct (drop_while _ s) as [|y l] eqn:E.
  - apply drop_while_nil in E. rewrite (take_while_full _ s E). by destruct s.
  - destruct (take_while _ s); by destruct s.
Qed.
Definition value_end : rx := XSeq (XGroup 2 (XSeq (XClass true [IRange 10%N 10%N]) (XStar (XClass true [IRange 10%N 10%N])))) XEnd.
Definition space_rx : rx := XClass false [IRange 32%N 32%N].
Definition is_space (c : char) : bool := (c =? SPACE)%N.
Lemma cls_space : is_cls space_rx is_space.
Proof. exact (cls_is 32%N). Qed.
Definition has_nl (s : str) : bool := existsb (λ x : char, x =? NL)%N s.
Lemma nl_spaces s : has_nl (drop_while is_space s) = has_nl s.
Proof.
  induction s as [|x s IH]; [done|]. cbn [drop_while]. destruct (is_space x) eqn:E; [|done]. rewrite IH. unfold has_nl. cbn [existsb].
  apply N.eqb_eq in E as ->. done.
Qed.
Lemma value_end_run b s c : rx_run value_end (b, s) c = match s with [] => [] | _ => if has_nl s then [] else [((false, []), (2, s) :: c)] end.
Proof. apply dot_end. Qed.
Lemma head_app {A} (l k : list A) : head (l ++ k) = match head l with Some x => Some x | None => head k end.
Proof. by destruct l. Qed.
(** The spaces after the colon give back one if nothing follows them. *)
Lemma spaces_star b s c : head (rx_run (XSeq (XStar space_rx) value_end) (b, s) c) =
  if has_nl s then None else
  match drop_while is_space s with
  | (_ :: _) as v => Some ((false, []), (2, v) :: c)
  | [] => match s with [] => None | _ => Some ((false, []), (2, [SPACE]) :: c) end
  end.
Proof.
  rewrite run_seq. revert b. induction s as [|x s IH]; intros b.
  - rewrite (star_nil _ is_space), bind_one by exact cls_space. done.
  - rewrite (star_cons _ is_space) by exact cls_space. cbn [drop_while]. destruct (is_space x) eqn:Ex.
    + rewrite bind_app_list, head_app, (IH false), bind_one. cbn [fst snd]. rewrite value_end_run. apply N.eqb_eq in Ex as ->.
      change (has_nl (SPACE :: s)) with (has_nl s). destruct (has_nl s); [done|]. destruct (drop_while is_space s); [|done]. by destruct s.
    + rewrite bind_one. cbn [fst snd]. rewrite value_end_run. unfold has_nl. cbn [existsb]. by destruct (_ || _).
Qed.
Lemma spaces_end b s c :
  head (rx_run (XSeq (XSeq space_rx (XStar space_rx)) value_end) (b, s) c) =
  let sp := take_while is_space s in
  let v := drop_while is_space s in
  if has_nl v then None else
  match sp, v with
  | [], _ => None
  | _, _ :: _ => Some ((false, []), (2, v) :: c)
  | [_], [] => None
  | _ :: _ :: _, [] => Some ((false, []), (2, [SPACE]) :: c)
  end.
Proof.
  cbv zeta. rewrite seq_assoc. destruct s as [|x s]; [by rewrite (seq_nil _ _ _ _ _ cls_space)|].
  rewrite (seq_cons _ _ _ _ _ _ _ cls_space). cbn [take_while drop_while]. destruct (is_space x) eqn:Ex; [|by destruct (has_nl _)].
  rewrite spaces_star, nl_spaces. destruct (has_nl s); [done|]. destruct (drop_while is_space s) eqn:E; [|by destruct (take_while is_space s)].
  destruct s as [|y s]; [done|]. cbn [take_while drop_while] in *. by destruct (is_space y).
Qed.
Lemma value_tag_eq (line : str) : value_tag_rx line =
  match take_while tag_char (drop_while is_space line), drop_while tag_char (drop_while is_space line) with
  | (_ :: _) as key, c :: after =>
      if (c =? 58)%N then
        match after with
        | [] => Some (key, None)
        | _ =>
            if has_nl (drop_while is_space after) then None else
            match take_while is_space after, drop_while is_space after with
            | [], _ => None
            | _, (_ :: _) as v => Some (key, Some v)
            | [_], [] => None
            | _ :: _ :: _, [] => Some (key, Some [SPACE])
            end
        end
      else None
  | _, _ => None
  end.
Proof.
  unfold value_tag_rx. cbv zeta. fold (drop_while is_space line). destruct (take_while tag_char _); [done|]. destruct (drop_while tag_char _); [done|].
  destruct (_ =? _)%N; [|done]. destruct l0; [done|].
  change (λ c2 : N, (c2 =? SPACE)%N) with is_space. change (existsb (λ c2 : N, (c2 =? NL)%N) ?x) with (has_nl x).
  change (@take_while N) with (@take_while char). change (@drop_while N) with (@drop_while char). change (@cons N) with (@cons char).
  destruct (has_nl _); [done|]. by destruct (take_while is_space (c1 :: l0)) as [|? [|]], (drop_while is_space (c1 :: l0)).
Qed.
Lemma value_regex r s : rx_parse VALUE_TAG_RX = Some r →
  (λ c, (group 1 c, group 2 c)) <$> rx_captures r s = value_groups <$> value_tag_rx s.
Proof.
  vm_compute (rx_parse _). intros [= <-]. unfold rx_captures. rewrite anchored. fold space_rx.
  set (tagc := XClass true [IRange 58%N 58%N; IRange 32%N 32%N]). pose proof (cls_tag : is_cls tagc _) as Ht.
  set (tail := XSeq (XAlt _ XEmpty) XEnd).
  assert (∀ b s c, head (rx_run tail (b, s) c) = match s with [] => Some ((b, []), c) | _ => head (rx_run (XSeq (XSeq space_rx (XStar space_rx)) value_end) (b, s) c) end) as Htail.
  { intros b' s' c'. unfold tail. rewrite run_seq. change (rx_run (XAlt ?x ?y) ?p ?c) with (rx_run x p c ++ rx_run y p c).
    rewrite bind_app_list, head_app. fold space_rx. rewrite <- run_seq, seq_assoc. fold value_end.
    rewrite spaces_end. cbn [rx_run]. rewrite bind_one. cbn [fst snd]. destruct s' as [|x l]; [done|]. cbv zeta. cbn [head]. 
    by destruct (has_nl _), (take_while is_space (x :: l)) as [|? [|? ?]], (drop_while is_space (x :: l)). }
  clearbody tail.
  rewrite run_seq, (star_then _ is_space); [|exact cls_space|].
  2:{ intros b x s' c Hx. cbn [fst snd]. apply N.eqb_eq in Hx as ->. rewrite (group_plus_then _ _ tag_char); [done|exact Ht|]. intros b' y s'' c' Hy.
      rewrite (seq_cons _ _ _ _ _ _ _ (cls_is 58%N)). destruct (y =? 58)%N eqn:E; [|done]. by apply N.eqb_eq in E as ->. }
  unfold after. cbn [fst snd]. rewrite value_tag_eq.
  rewrite (group_plus_then _ _ tag_char); [|exact Ht|].
  2:{ intros b' y s'' c' Hy. rewrite (seq_cons _ _ _ _ _ _ _ (cls_is 58%N)). destruct (y =? 58)%N eqn:E; [|done]. by apply N.eqb_eq in E as ->. }
  set (s1 := drop_while is_space s). destruct (take_while tag_char s1) as [|k key] eqn:Ek; [done|].
  destruct (drop_while tag_char s1) as [|x rest]; [by rewrite (seq_nil _ _ _ _ _ (cls_is 58%N))|].
  rewrite (seq_cons _ _ _ _ _ _ _ (cls_is 58%N)). destruct (x =? 58)%N; [|done].
  rewrite Htail. destruct rest as [|y rest].
  - cbn [fmap option_fmap option_map m_caps snd]. rewrite group_hd, group_tl by done. done.
  - rewrite spaces_end. cbv zeta. destruct (has_nl _); [done|].
    destruct (take_while is_space (y :: rest)) as [|a [|b l]], (drop_while is_space (y :: rest)) as [|v vs]; try done;
      cbn [fmap option_fmap option_map m_caps snd]; rewrite group_hd, group_tl, group_hd by done; done.
Qed.

(** src/comment.rs:46, used with [captures_iter] in src/comment.rs:68. *)
Definition colon_rx : rx := XClass false [IRange 58%N 58%N].
Definition tag_rx : rx := XClass true [IRange 58%N 58%N; IRange 32%N 32%N].
Definition flag_body : rx := XSeq (XSeq tag_rx (XStar tag_rx)) colon_rx.
Lemma cls_colon : is_cls colon_rx (λ x, (x =? COLON)%N).
Proof. exact (cls_is 58%N). Qed.
Lemma flag_body_run b s c : rx_run flag_body (b, s) c =
  match take_while tag_char s, drop_while tag_char s with
  | _ :: _, x :: rest => if (x =? COLON)%N then [((false, rest), c)] else []
  | _, _ => []
  end.
Proof.
  unfold flag_body. rewrite run_seq, (plus_then _ _ _ _ _ _ cls_tag).
  - destruct (take_while tag_char s); [done|]. cbn [fst snd]. rewrite cls_colon. done.
  - intros b' x s' c' Hx. cbn [fst snd]. rewrite cls_colon. cbn [snd]. unfold tag_char in Hx. by destruct (x =? COLON)%N.
Qed.
Lemma drop_shorter f (s rest : str) x : drop_while f s = x :: rest → length rest < length s.
Proof. intros E. rewrite <- (take_drop_while f s), E, app_length. cbn. lia. Qed.
Lemma flag_reps_fuel n m s : length s ≤ n → length s ≤ m → flag_reps n s = flag_reps m s.
Proof.
  revert m s. induction n as [|n IH]; intros m s Hn Hm.
  - destruct s; [|cbn in Hn; lia]. by destruct m.
  - destruct m as [|m]; [destruct s; [done|cbn in Hm; lia]|]. cbn [flag_reps].
    destruct (take_while tag_char s); [done|]. destruct (drop_while tag_char s) as [|x rest] eqn:E; [done|].
    pose proof (drop_shorter _ _ _ _ E). rewrite (IH m rest) by lia. done.
Qed.
Lemma flag_reps_app n s : s = (flag_reps n s).1 ++ (flag_reps n s).2.
Proof.
  revert s. induction n as [|n IH]; intros s; [done|]. cbn [flag_reps]. pose proof (take_drop_while tag_char s) as E.
  destruct (take_while tag_char s) as [|y l]; [done|]. destruct (drop_while tag_char s) as [|x rest]; [done|].
  destruct (N.eqb_spec x COLON) as [->|]; [|done]. pose proof (IH rest) as H. destruct (flag_reps n rest) as [m r]. cbn [fst snd] in *.
  rewrite <- E, H at 1. by rewrite <- app_assoc.
Qed.
Lemma flag_star n b s c : length s ≤ n →
  head (star_run (rx_run flag_body) n (b, s) c) = Some ((match (flag_reps n s).1 with [] => b | _ => false end, (flag_reps n s).2), c).
Proof.
  revert b s. induction n as [|n IH]; intros b s Hn; [done|]. cbn [star_run flag_reps snd]. rewrite flag_body_run.
  destruct (take_while tag_char s) as [|y l]; [done|]. destruct (drop_while tag_char s) as [|x rest] eqn:E; [done|].
  pose proof (drop_shorter _ _ _ _ E) as Hl. destruct (x =? COLON)%N; [|done].
  rewrite filter_cons. cbn [fst snd]. rewrite decide_True by done. rewrite filter_nil, bind_one. cbn [fst snd].
  rewrite head_app, IH by lia. destruct (flag_reps n rest) as [m r]. by destruct m.
Qed.
Lemma flag_here b x s : head (rx_run (XSeq colon_rx (XGroup 1 (XSeq flag_body (XStar flag_body)))) (b, x :: s) []) =
  if (x =? COLON)%N then
    match flag_reps (length s) s with ([], _) => None | (m, rest) => Some ((false, rest), [(1, m)]) end
  else None.
Proof.
  rewrite (seq_cons _ _ _ _ _ _ _ cls_colon). destruct (x =? COLON)%N; [|done].
  change (rx_run (XGroup 1 ?a) ?p ?c) with ((λ pc, (pc.1, (1, take (length p.2 - length pc.1.2) p.2) :: pc.2)) <$> rx_run a p c).
  rewrite head_fmap, run_seq, flag_body_run. pose proof (flag_reps_app (length s) s) as Ha.
  destruct s as [|a s]; [done|]. cbn [length flag_reps] in *. pose proof (take_drop_while tag_char (a :: s)) as Et.
  destruct (take_while tag_char (a :: s)) as [|y l]; [done|].
  destruct (drop_while tag_char (a :: s)) as [|z rest] eqn:E; [done|]. pose proof (drop_shorter _ _ _ _ E) as Hl. cbn [length] in Hl.
  destruct (z =? COLON)%N; [|done]. rewrite bind_one. cbn [fst snd].
  change (rx_run (XStar flag_body) (false, rest) []) with (star_run (rx_run flag_body) (length rest) (false, rest) []).
  rewrite flag_star by done. rewrite (flag_reps_fuel (length rest) (length s)) by lia.
  destruct (flag_reps (length s) rest) as [m r]. cbn [fst snd fmap option_fmap option_map] in *.
  assert (take (S (length s) - length r) (a :: s) = (y :: l) ++ COLON :: m) as Ht.
  { rewrite Ha. change (S (length s)) with (length (a :: s)). rewrite Ha at 1. rewrite app_length, Nat.add_sub. apply take_app. }
  cbn [length]. rewrite Ht. by destruct m.
Qed.
Definition flag_match (m : rx_match) : str * option str := (m_before m, group 1 (m_caps m)).
Definition flag_found (g : str * str) : str * option str := (g.1, Some g.2).
Lemma flag_iter r n k b acc s : r = XSeq colon_rx (XGroup 1 (XSeq flag_body (XStar flag_body))) → length s ≤ n → length s ≤ k →
  let found := match rx_find r b acc s with
    | None => ([], reverse acc ++ s)
    | Some m => let '(ms, rest) := rx_iter r k false (m_rest m) in (m :: ms, rest)
    end in
  (flag_match <$> found.1, found.2) = (flag_found <$> (flag_scan n acc s).1, (flag_scan n acc s).2).
Proof.
  intros Er. revert k b acc s. induction n as [|n IH]; intros k b acc s Hn Hk; cbv zeta.
  - destruct s; [|cbn in Hn; lia]. rewrite find_eq, Er. done.
  - destruct s as [|x s]; [rewrite find_eq, Er; cbn; by rewrite app_nil_r|]. cbn [length] in Hn, Hk.
    rewrite find_eq. match goal with |- context [head ?l] => assert (head l = if (x =? COLON)%N then
      match flag_reps (length s) s with ([], _) => None | (m, rest) => Some ((false, rest), [(1, m)]) end else None) as -> end.
    { rewrite Er. apply flag_here. }
    cbn [flag_scan].
    assert (reverse acc ++ x :: s = reverse (x :: acc) ++ s) as Hr. { by rewrite reverse_cons, <- app_assoc. }
    destruct (x =? COLON)%N; [|rewrite Hr; apply IH; lia].
    pose proof (flag_reps_app (length s) s) as Ha. destruct (flag_reps (length s) s) as [[|y m] rest]; [rewrite Hr; apply IH; lia|].
    cbn [fst snd] in *. destruct k as [|k]; [lia|].
    assert (length rest ≤ length s) as Hl. { rewrite Ha, app_length. lia. }
    pose proof (IH k false [] rest) as H. cbv zeta in H. specialize (H ltac:(lia) ltac:(lia)). cbn [m_rest rx_iter].
    destruct (rx_find r false [] rest) as [mm|].
    + destruct (rx_iter r k false (m_rest mm)) as [ms tl]. destruct (flag_scan n [] rest) as [gs tl']. cbn [fst snd] in *.
      assert (flag_match <$> mm :: ms = flag_found <$> gs ∧ tl = tl') as [H1 ->] by (by split; congruence).
      rewrite (fmap_cons flag_match _ (mm :: ms)), H1. done.
    + destruct (flag_scan n [] rest) as [gs tl']. cbn [fst snd reverse app] in *. assert (flag_found <$> gs = [] ∧ tl' = rest) as [H1 ->] by (split; [by destruct gs|by injection H]).
      rewrite (fmap_cons flag_found _ gs), H1. done.
Qed.
Lemma flag_regex r s ms tail : rx_parse FLAG_TAG_RX = Some r → rx_iter r (S (length s)) true s = (ms, tail) →
  flag_scan (length s) [] s = ((λ m, (m_before m, default [] (group 1 (m_caps m)))) <$> ms, tail) ∧
  Forall (λ m, group 1 (m_caps m) ≠ None) ms.
Proof.
  vm_compute (rx_parse _). intros [= Hr] Hi. pose proof (flag_iter r (length s) (length s) true [] s) as H. cbv zeta in H.
  specialize (H (eq_sym Hr) (le_n _) (le_n _)). cbn [rx_iter] in Hi. clear Hr.
  destruct (flag_scan (length s) [] s) as [gs tl].
  assert (flag_match <$> ms = flag_found <$> gs ∧ tail = tl) as [H1 ->].
  { destruct (rx_find r true [] s) as [m|].
    - destruct (rx_iter r (length s) false (m_rest m)) as [ms' tl']. injection Hi as <- <-. by injection H as H1 H2.
    - injection Hi as <- <-. cbn [fst snd reverse app] in H. by injection H as H1 H2. }
  clear H Hi. revert gs H1. induction ms as [|m ms IH]; intros [|g gs] E; try done. rewrite !fmap_cons in E. injection E as E1 E2 E3.
  destruct (IH gs E3) as [[= ->] HF]. split; [|constructor; [by rewrite E2|done]].
  rewrite fmap_cons. rewrite E1, E2. cbn. by destruct g.
Qed.
