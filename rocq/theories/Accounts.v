(** Several bank accounts in one journal (C132). *)
From Verif Require Import MergeClaims.
From stdpp Require Import gmap list.
From Verif Require Import Base Types SpecBase BaseProofs CommentModel MergeModel CmdModel FingerprintModel NwCsvModel TzModel PaypalModel OcrModel PdfModel
  FingerprintClaims ImportClaims EditClaims WindowClaims StatementClaims PdfClaims PdfDaysClaims NsUseClaims CmdClaims
  RulesModel RulesClaims RulesProofs RulesEdit PipeClaims AssertClaims FingerprintProofs ImportProofs ImportRows ImportLaws ImportPaypal PdfFold PdfLaws MergeLemmas MergeEdit MergeDays ImportDays PaypalDays PdfDays
  CmdProofs HeaderClaims NsUse Pipe Assert Assert2 AccountsClaims.
From Coq Require Import Lia QArith.
Local Open Scope nat_scope.

Lemma fmap_cond {A B} (f g : A → B) (l : list A) : (∀ x, x ∈ l → f x = g x) → f <$> l = g <$> l.
Proof. induction l as [|x l IH]; intros H; [done|]. rewrite !fmap_cons, (H x) by left. f_equal. apply IH. intros; apply H. by right. Qed.

(** * Sorting *)
Section sorting.
  Context {A : Type} (key : A → date).
  Lemma insert_grows x (l : list A) : l `sublist_of` sort_insert (by_key key) x l.
  Proof.
    induction l as [|y l IH]; [apply sublist_nil_l|]. cbn [sort_insert]. destruct (by_key key x y); [by apply sublist_cons|by apply sublist_skip].
  Qed.
  Lemma insert_sublist x (k l : list A) : StronglySorted (λ a b, by_key key a b = true) l → k `sublist_of` l →
    sort_insert (by_key key) x k `sublist_of` sort_insert (by_key key) x l.
  Proof.
    intros Hl H. induction H as [|y k l H IH|y k l H IH]; [done| |].
    - inversion Hl; subst. cbn [sort_insert]. destruct (by_key key x y).
      + by apply sublist_skip, sublist_skip.
      + apply sublist_skip. by apply IH.
    - inversion Hl as [|? ? Hl1 Hl2]; subst. cbn [sort_insert]. destruct (by_key key x y) eqn:E.
      + rewrite sort_insert_head; [by apply sublist_skip, sublist_cons|].
        apply Forall_forall. intros z Hz. apply (by_key_trans key x y z); [done|].
        apply (proj1 (Forall_forall _ _) Hl2). clear -H Hz. induction H; [done| |by right; auto]. apply elem_of_cons in Hz as [->|Hz]; [by left|by right; auto].
      + apply sublist_cons. by apply IH.
  Qed.
  Lemma sort_sublist (k l : list A) : k `sublist_of` l → stable_sort (by_key key) k `sublist_of` stable_sort (by_key key) l.
  Proof.
    induction 1 as [|x k l H IH|x k l H IH]; [done| |]; cbn [stable_sort].
    - apply insert_sublist; [|done]. apply stable_sort_sorted; [apply by_key_total|apply by_key_trans].
    - etrans; [exact IH|]. apply insert_grows.
  Qed.
End sorting.
Lemma sublist_same_length {A} (k l : list A) : k `sublist_of` l → length l ≤ length k → k = l.
Proof.
  induction 1 as [|x k l H IH|x k l H IH]; intros Hl; [done| |].
  - f_equal. apply IH. cbn in Hl. lia.
  - apply sublist_length in H. cbn in Hl. lia.
Qed.
Lemma bind_sublist {A B} (f : A → list B) k l : k `sublist_of` l → (k ≫= f) `sublist_of` (l ≫= f).
Proof.
  induction 1 as [|x k l H IH|x k l H IH]; [done| |]; rewrite ?bind_cons.
  - by apply sublist_app.
  - etrans; [exact IH|]. by apply sublist_inserts_l.
Qed.
Lemma filter_sub {A} (P : A → Prop) `{∀ x, Decision (P x)} (k l : list A) : k `sublist_of` l → filter P k `sublist_of` filter P l.
Proof.
  induction 1 as [|x k l H' IH|x k l H' IH]; [done| |]; rewrite !filter_cons.
  - destruct (decide (P x)); [by apply sublist_skip|done].
  - destruct (decide (P x)); [by apply sublist_cons|done].
Qed.
Lemma filter_sublist_of {A} (P : A → Prop) `{∀ x, Decision (P x)} (l : list A) : filter P l `sublist_of` l.
Proof.
  induction l as [|x l IH]; [done|]. rewrite filter_cons. destruct (decide (P x)); [by apply sublist_skip|by apply sublist_cons].
Qed.
Lemma mjoin_perm {A} (Js : list (list A)) n J : Js !! n = Some J → mjoin Js ≡ₚ J ++ mjoin (delete n Js).
Proof.
  revert n. induction Js as [|K Js IH]; intros n Hn; [done|]. destruct n as [|n]; cbn in Hn |- *.
  - by injection Hn as ->.
  - rewrite (IH n Hn). rewrite !(assoc_L (++)). f_equiv. apply (comm (++)).
Qed.

(** * Parts of a journal that do not look alike *)
Lemma pieces_merge_apart (f : nat → list transaction_postings) seen ws hos :
  journal_ok (seen ≫= f) →
  (∀ i k a b p q, i ≠ k → i ∈ seen → k ∈ seen → a ∈ f i → b ∈ f k → p ∈ tp_posts a → q ∈ tp_posts b → tp_date a = tp_date b → ¬ soft_match p q) →
  covers ws seen → Forall NoDup ws → length hos = length ws → Forall hash_order_ok hos →
  ∃ m seen', clean_run merger_new (zip hos ((λ w, w ≫= f) <$> ws)) m ∧ seen' ≡ₚ seen ∧
    ∀ ho, hash_order_ok ho → build ho m = Ok (stable_sort (by_key tp_date) (seen' ≫= f)).
Proof.
  intros Hok Hd Hcov Hws Hlen Hhos.
  set (g := λ k, if decide (k ∈ seen) then f k else []). set (n := S (max_list seen)).
  assert (∀ w, (∀ k, k ∈ w → k ∈ seen) → window (g <$> seq 0 n) w = w ≫= f) as Hwin.
  { intros w Hw. rewrite window_of_fun.
    - apply bind_cond. intros k Hk. unfold g. by rewrite decide_True by auto.
    - intros k Hk%Hw. unfold n. pose proof (max_list_elem_of_le k seen Hk). lia. }
  assert (∀ w, w ∈ ws → ∀ k, k ∈ w → k ∈ seen) as Hsub by (intros w Hw k Hk; apply Hcov; eauto).
  destruct (windows_merge (g <$> seq 0 n) (zip hos ws)) as (m & seen' & Hrun & [Hnd' Hcov'] & Hb).
  - split.
    + assert (concat (g <$> seq 0 n) ≡ₚ seen ≫= f) as Hperm.
      { rewrite concat_fmap_bind. rewrite <- (bind_cond g f) by (intros k Hk; unfold g; by rewrite decide_True).
        assert (seq 0 n ≡ₚ seen ++ filter (.∉ seen) (seq 0 n)) as Hp.
        { rewrite (filter_split seen (seq 0 n)) at 1. f_equiv. apply NoDup_Permutation.
          - apply NoDup_filter, NoDup_seq.
          - apply Hcov.
          - intros k. rewrite elem_of_list_filter, elem_of_seq. unfold n. split; [naive_solver|]. intros Hk. split; [done|].
            pose proof (max_list_elem_of_le k seen Hk). lia. }
        rewrite Hp, bind_app. rewrite (bind_empty g (filter _ _)).
        - by rewrite app_nil_r.
        - intros k [Hk _]%elem_of_list_filter. unfold g. by rewrite decide_False. }
      destruct Hok as (H1 & H2 & H3). split_and!.
      * intros p. rewrite (all_posts_perm _ _ Hperm). apply H1.
      * rewrite (all_posts_perm _ _ Hperm). apply H2.
      * intros tp. rewrite Hperm. apply H3.
    + intros i k D E a b p q Hne HD HE Ha Hb. rewrite list_lookup_fmap in HD, HE.
      destruct (seq 0 n !! i) as [i'|] eqn:Ei; [|done]. destruct (seq 0 n !! k) as [k'|] eqn:Ek; [|done].
      apply lookup_seq in Ei as [-> _], Ek as [-> _]. simpl in HD, HE. injection HD as <-. injection HE as <-.
      unfold g in Ha, Hb. destruct (decide (i ∈ seen)); [|by apply elem_of_nil in Ha]. destruct (decide (k ∈ seen)); [|by apply elem_of_nil in Hb].
      by apply (Hd i k).
  - apply Forall_forall. intros [ho w] Hin. split; cbn.
    + apply elem_of_zip_l in Hin. by eapply Forall_forall in Hhos.
    + apply elem_of_zip_r in Hin. by eapply Forall_forall in Hws.
  - rewrite snd_zip in Hcov' by lia.
    assert (seen' ≡ₚ seen) as Hp.
    { apply NoDup_Permutation; [done|by apply Hcov|]. intros k. destruct Hcov as [_ Hcov]. by rewrite Hcov', Hcov. }
    exists m, seen'. split_and!; [|done|].
    + assert (prod_map id (window (g <$> seq 0 n)) <$> zip hos ws = zip hos ((λ w, w ≫= f) <$> ws)) as <-; [|done].
      clear -Hwin Hsub Hlen. revert hos Hlen. induction ws as [|w ws IH]; intros [|ho hos] Hlen; try done. simpl. f_equal.
      * unfold prod_map. simpl. f_equal. apply Hwin. apply Hsub. left.
      * apply IH; [|by simpl in Hlen; lia]. intros; eapply Hsub; [by right|done].
    + intros ho Hho. rewrite (Hb ho) by done. rewrite Hwin; [done|]. intros k Hk. by rewrite <- Hp.
Qed.
(** Days in another order. *)
Lemma days_order_fun (f : nat → list transaction_postings) (v w : list nat) :
  (∀ i k a b, i ∈ w → k ∈ w → a ∈ f i → b ∈ f k → tp_date a = tp_date b ↔ i = k) → NoDup w → v ≡ₚ w →
  stable_sort (by_key tp_date) (v ≫= f) = stable_sort (by_key tp_date) (w ≫= f).
Proof.
  intros Hd Hw Hp. set (g := λ k, if decide (k ∈ w) then f k else []). set (n := S (max_list w)).
  assert (∀ v, v ≡ₚ w → window (g <$> seq 0 n) v = v ≫= f) as Hwin.
  { clear v Hp. intros v Hp. rewrite window_of_fun.
    - apply bind_cond. intros k Hk. unfold g. rewrite decide_True; [done|]. by rewrite <- Hp.
    - intros k Hk. rewrite Hp in Hk. unfold n. pose proof (max_list_elem_of_le k w Hk). lia. }
  rewrite <- (Hwin v Hp), <- (Hwin w) by done. apply days_order; [|by rewrite Hp|done|intros k; by rewrite Hp].
  intros i k D E a b HD HE Ha Hb. rewrite list_lookup_fmap in HD, HE.
  destruct (seq 0 n !! i) as [i'|] eqn:Ei; [|done]. destruct (seq 0 n !! k) as [k'|] eqn:Ek; [|done].
  apply lookup_seq in Ei as [-> _], Ek as [-> _]. simpl in HD, HE. injection HD as <-. injection HE as <-.
  unfold g in Ha, Hb. destruct (decide (i ∈ w)); [|by apply elem_of_nil in Ha]. destruct (decide (k ∈ w)); [|by apply elem_of_nil in Hb].
  by apply Hd.
Qed.

(** * Numbered accounts with numbered days *)
Section numbered.
  Context (N : nat) (G : nat → nat → list transaction_postings) (S : nat → list nat) (ins : list (nat * list nat)) (hos : list hash_order).
  Context (Hok : ∀ n, n < N → journal_ok (S n ≫= G n)).
  Context (Hfp : ∀ n n' p q, n < N → n' < N → n ≠ n' → p ∈ all_posts (S n ≫= G n) → q ∈ all_posts (S n' ≫= G n') → ¬ share_fp p q).
  Context (Hd : ∀ n i k a b, n < N → i ∈ S n → k ∈ S n → a ∈ G n i → b ∈ G n k → tp_date a = tp_date b ↔ i = k).
  Context (Hap : ∀ n n' i k a b p q, n < N → n' < N → n ≠ n' → i ∈ S n → k ∈ S n' → a ∈ G n i → b ∈ G n' k →
    p ∈ tp_posts a → q ∈ tp_posts b → tp_date a = tp_date b → ¬ soft_match p q).
  Context (Hins : ∀ x, x ∈ ins → x.1 < N ∧ NoDup x.2).
  Context (Hcov : ∀ n, n < N → covers (snd <$> filter (λ x, x.1 = n) ins) (S n)).
  Let enc (n k : nat) : nat := k * N + n.
  Let f (i : nat) : list transaction_postings := G (i mod N) (i / N).
  Lemma enc_mod n k : n < N → enc n k mod N = n.
  Proof. intros Hn. unfold enc. rewrite Nat.add_comm, Nat.mod_add by lia. by apply Nat.mod_small. Qed.
  Lemma enc_div n k : n < N → enc n k / N = k.
  Proof. intros Hn. unfold enc. rewrite Nat.add_comm, Nat.div_add by lia. rewrite Nat.div_small by done. done. Qed.
  Lemma enc_inj n k n' k' : n < N → n' < N → enc n k = enc n' k' → n = n' ∧ k = k'.
  Proof.
    intros Hn Hn' E. split.
    - rewrite <- (enc_mod n k Hn), <- (enc_mod n' k' Hn'). by rewrite E.
    - rewrite <- (enc_div n k Hn), <- (enc_div n' k' Hn'). by rewrite E.
  Qed.
  Lemma enc_bind n w : n < N → (enc n <$> w) ≫= f = w ≫= G n.
  Proof.
    intros Hn. induction w as [|k w IH]; [done|]. rewrite fmap_cons, !bind_cons, IH. f_equal. unfold f. by rewrite enc_mod, enc_div.
  Qed.
  Let all (ns : list nat) : list nat := ns ≫= λ n, enc n <$> S n.
  Lemma elem_all ns i : i ∈ all ns ↔ ∃ n k, n ∈ ns ∧ k ∈ S n ∧ i = enc n k.
  Proof.
    unfold all. rewrite elem_of_list_bind. split.
    - intros (n & (k & -> & Hk)%elem_of_list_fmap & Hn). eauto.
    - intros (n & k & Hn & Hk & ->). exists n. split; [by apply elem_of_list_fmap_1|done].
  Qed.
  Lemma all_bind ns : (∀ n, n ∈ ns → n < N) → all ns ≫= f = ns ≫= λ n, S n ≫= G n.
  Proof.
    unfold all. induction ns as [|n ns IH]; intros H; [done|]. rewrite !bind_cons, bind_app.
    rewrite enc_bind by (apply H; left). f_equal. apply IH. intros; apply H. by right.
  Qed.
  Lemma all_ok ns : NoDup ns → (∀ n, n ∈ ns → n < N) → journal_ok (ns ≫= λ n, S n ≫= G n).
  Proof using Hok Hfp.
    induction ns as [|n ns IH]; intros Hnd H.
    { split_and!; [intros p Hp; by apply elem_of_nil in Hp|by intros i k p q Hi|intros tp Ht; by apply elem_of_nil in Ht]. }
    apply NoDup_cons in Hnd as [Hn Hnd]. rewrite bind_cons.
    destruct (Hok n) as (H1 & H2 & H3); [apply H; left|]. destruct IH as (I1 & I2 & I3); [done|intros; apply H; by right|].
    split_and!.
    - intros p. rewrite all_posts_app, elem_of_app. intros [Hp|Hp]; auto.
    - rewrite all_posts_app. apply fps_distinct_app_intro; [done..|].
      intros p q Hp Hq. unfold all_posts in Hq. apply elem_of_list_bind in Hq as (tp & Hq & Htp).
      apply elem_of_list_bind in Htp as (n' & Htp & Hn').
      apply (Hfp n n'); [apply H; left|apply H; by right|by intros ->|done|]. by eapply elem_all_posts.
    - intros tp. rewrite elem_of_app. intros [Hp|Hp]; auto.
  Qed.
  Lemma all_nodup ns : NoDup ns → (∀ n, n ∈ ns → n < N) → NoDup (all ns).
  Proof using All.
    induction ns as [|n ns IH]; intros Hnd H; [constructor|]. apply NoDup_cons in Hnd as [Hn Hnd].
    unfold all. rewrite bind_cons. apply NoDup_app. split_and!.
    - apply (NoDup_fmap_2_strong (enc n)); [|apply Hcov, H; left]. intros k k' _ _ E. by eapply (enc_inj n k n k'); [apply H; left..|].
    - intros i (k & -> & Hk)%elem_of_list_fmap (n' & k' & Hn' & Hk' & E)%elem_all.
      destruct (enc_inj n k n' k') as [-> _]; [apply H; left|apply H; by right|done|done].
    - apply IH; [done|]. intros; apply H. by right.
  Qed.
  Lemma numbered_merge : length hos = length ins → Forall hash_order_ok hos →
    ∃ m out, clean_run merger_new (zip hos ((λ x, x.2 ≫= G x.1) <$> ins)) m ∧
      (∀ ho, hash_order_ok ho → build ho m = Ok out) ∧ all_in ((λ n, S n ≫= G n) <$> seq 0 N) out.
  Proof using Hok Hfp Hd Hap Hins Hcov.
    intros Hlen Hhos.
    assert (∀ n, n ∈ seq 0 N → n < N) as Hlt by (intros n ?%elem_of_seq; lia).
    pose proof (all_nodup (seq 0 N) ltac:(apply NoDup_seq) Hlt) as Hnd.
    destruct (pieces_merge_apart f (all (seq 0 N)) ((λ x : nat * list nat, enc x.1 <$> x.2) <$> ins) hos) as (m & seen' & Hrun & Hp & Hb).
    - rewrite all_bind by done. apply all_ok; [apply NoDup_seq|done].
    - intros i k a b p q Hne (n & x & Hn%Hlt & Hx & ->)%elem_all (n' & y & Hn'%Hlt & Hy & ->)%elem_all Ha Hb Hp Hq Hdt.
      unfold f in Ha, Hb. rewrite enc_mod, enc_div in Ha, Hb by done. destruct (decide (n = n')) as [<-|Hnn].
      + assert (x = y) as ->; [|done]. by apply (Hd n x y a b).
      + by apply (Hap n n' x y a b).
    - split; [done|]. intros i. rewrite elem_all. split.
      + intros (n & k & Hn%Hlt & Hk & ->). apply (Hcov n Hn) in Hk as (w & (x & -> & [Ex Hx]%elem_of_list_filter)%elem_of_list_fmap & Hk).
        exists (enc x.1 <$> x.2). split; [by apply (elem_of_list_fmap_1 (λ x : nat * list nat, enc x.1 <$> x.2))|]. rewrite Ex. by apply elem_of_list_fmap_1.
      + intros (w & (x & -> & Hx)%elem_of_list_fmap & (k & -> & Hk)%elem_of_list_fmap). destruct (Hins x Hx) as [Hn _].
        exists x.1, k. split; [apply elem_of_seq; lia|]. split; [|done]. apply (Hcov x.1 Hn). exists x.2. split; [|done].
        apply elem_of_list_fmap_1. by apply elem_of_list_filter.
    - apply Forall_forall. intros w (x & -> & Hx)%elem_of_list_fmap. destruct (Hins x Hx) as [Hn Hw].
      apply (NoDup_fmap_2_strong (enc x.1)); [|done]. intros k k' _ _ E. by eapply (enc_inj x.1 k x.1 k').
    - by rewrite fmap_length.
    - done.
    - exists m, (stable_sort (by_key tp_date) (seen' ≫= f)). split; [|split; [done|split]].
      + assert ((λ w, w ≫= f) <$> ((λ x : nat * list nat, enc x.1 <$> x.2) <$> ins) = (λ x, x.2 ≫= G x.1) <$> ins) as <-; [|done].
        rewrite <- list_fmap_compose. apply fmap_cond. intros x Hx. unfold compose. apply enc_bind. by apply Hins.
      + rewrite stable_sort_perm. rewrite Hp, all_bind by done. clear. induction (seq 0 N) as [|n l IH]; [done|]. rewrite bind_cons, fmap_cons. cbn [mjoin list_join]. by f_equiv.
      + intros i k a b Hik Ha Hb'. pose proof (stable_sort_sorted (by_key tp_date) (by_key_total _) (by_key_trans _) (seen' ≫= f)) as Hs.
        revert Ha Hb' Hik Hs. generalize (stable_sort (by_key tp_date) (seen' ≫= f)). clear. intros l. revert i k.
        induction l as [|c l IH]; intros i k Ha Hb Hik Hs; [done|]. inversion Hs as [|? ? Hs1 Hs2]; subst. destruct k as [|k]; [lia|].
        destruct i as [|i]; cbn in Ha, Hb.
        * injection Ha as ->. apply (proj1 (Forall_forall _ _) Hs2). by eapply elem_of_list_lookup_2.
        * apply (IH i k); [done..|lia|done].
      + intros J (n & -> & Hn)%elem_of_list_fmap. pose proof (Hlt n Hn) as HnN.
        pose proof (filter_sublist_of (λ i, i mod N = n) seen') as Hsub.
        set (v := (λ i, i / N) <$> filter (λ i, i mod N = n) seen').
        assert (filter (λ i, i mod N = n) seen' = enc n <$> v) as Ev.
        { unfold v. rewrite <- list_fmap_compose. rewrite <- (list_fmap_id (filter _ seen')) at 1.
          apply fmap_cond. intros i [Ei _]%elem_of_list_filter. unfold compose, enc. rewrite <- Ei.
          pose proof (Nat.div_mod i N ltac:(lia)). cbn. lia. }
        assert (v ≡ₚ S n) as Hv.
        { assert (filter (λ i, i mod N = n) seen' ≡ₚ enc n <$> S n) as HP.
          { apply NoDup_Permutation.
            - apply NoDup_filter. by rewrite Hp.
            - apply (NoDup_fmap_2_strong (enc n)); [|by apply Hcov]. intros k k' _ _ E. by eapply (enc_inj n k n k').
            - intros i. rewrite elem_of_list_filter, Hp, elem_all, elem_of_list_fmap. split.
              + intros (Ei & n' & k & Hn'%Hlt & Hk & ->). rewrite enc_mod in Ei by done. subst n'. eauto.
              + intros (k & -> & Hk). split; [by apply enc_mod|]. exists n, k. done. }
          unfold v. rewrite HP, <- list_fmap_compose. assert ((λ i, i / N) ∘ enc n <$> S n = S n) as ->; [|done].
          rewrite <- (list_fmap_id (S n)) at 2. apply fmap_cond. intros k _. by apply enc_div. }
        rewrite <- (days_order_fun (G n) v (S n)); [|intros; by apply (Hd n)|by apply Hcov|done].
        rewrite <- enc_bind by done. apply sort_sublist, bind_sublist. rewrite <- Ev. done.
  Qed.
End numbered.
