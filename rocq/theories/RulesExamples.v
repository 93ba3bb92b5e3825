(** Literal tables and files for the examples beside the theorems about rules. *)
From stdpp Require Import gmap list relations.
From Verif Require Import Base Types CommentModel MergeModel CmdModel SpecBase BaseProofs MergeExamples CmdClaims CmdProofs CmdExamples
  RulesModel RulesClaims RulesProofs RulesLaws RulesLoad RulesCmd.
Local Open Scope nat_scope.

(** "^x" matches at the beginning, anything else anywhere; replacing puts the
    replacement for the whole text; ASCII lower case. *)
Definition rx_X : text_env :=
  TextEnv (λ r s, match r with
           | 94%N :: r => starts_with r s | _ => contains r s end)
    (λ r s o, if contains r o then s else o)
    (map (λ c, if ((65 <=? c) && (c <=? 90))%N then (c + 32)%N else c)).

Definition rule1 (p : predicate) (a : action) : rule := Rule p a RContinue.
Definition rule2 (p : predicate) (a : action) : rule := Rule p a RReturn.
Definition is_account (s : str) : predicate := PAccount (MEq s).

(** A table with jumps, returns, nested actions. *)
Definition rx_start : list rule :=
  [ rule1 (PAny [is_account bank; PFlagTag (MMatches (s2l "^fp-b"))]) (AAll [AAddPostFlag (s2l "seen"); AJump (s2l "sub")]);
    rule1 PTrue (AAddTrnValue (s2l "by") (s2l "rules"));
    rule2 (PNot (PHasFlagTag (s2l "seen"))) (ASetAccount (s2l "other"));
    rule1 PTrue (ARemovePostFlag (s2l "seen")) ].
Definition rx_sub : list rule :=
  [ rule2 (PDescription (MContains (s2l "ark"))) (AReplaceDescription (s2l "market") (s2l "MARKET"));
    rule1 PTrue (ASetAccount (s2l "assets:not-market")) ].
Definition rx_T : table := {[ s2l "start" := rx_start; s2l "sub" := rx_sub ]}.

Definition rx_shape (tp : transaction_postings) :=
  (t_description (ti_raw (tp_trn tp)), map_to_list (value_tags (ti_comment (tp_trn tp))),
   map (λ p, (p_account (pi_raw p), elements (tags (pi_comment p)))) (tp_posts tp)).

(** Jumps of a concrete table. *)
Fixpoint jump_names (a : action) : list str :=
  match a with AJump m => [m] | AAll l => l ≫= jump_names | _ => [] end.
Lemma jump_names_spec m a : within (AJump m) a → m ∈ jump_names a.
Proof.
  induction 1 as [|b l Hb _ IH]; cbn [jump_names]; [by left|]. apply elem_of_list_bind. eauto.
Qed.
Lemma jumps_spec T n m : jumps T n m → m ∈ default [] (T !! n) ≫= λ r, jump_names (r_action r).
Proof.
  intros (rs & r & E & Hr & Hw). rewrite E. apply elem_of_list_bind. exists r. split; [by apply jump_names_spec|done].
Qed.
(** A table whose chains have ranks that fall with every jump has no cycle. *)
Lemma ranked_acyclic T (rank : str → nat) :
  map_Forall (λ n rs, Forall (λ r, Forall (λ m, rank m < rank n) (jump_names (r_action r))) rs) T →
  ∀ n, ¬ tc (jumps T) n n.
Proof.
  intros HT. assert (∀ n m, tc (jumps T) n m → rank m < rank n) as H.
  { intros n m. assert (∀ n m, jumps T n m → rank m < rank n) as Hj.
    { intros x y (rs & r & E & Hr & Hw). specialize (HT _ _ E). cbn in HT. rewrite Forall_forall in HT. specialize (HT r Hr).
      rewrite Forall_forall in HT. apply HT. by apply jump_names_spec. }
    induction 1 as [x y Hxy|x y z Hxy _ IH]; [by apply Hj|]. apply Hj in Hxy. lia. }
  intros n Hn. apply H in Hn. lia.
Qed.
Lemma used_closed T (l : list str) : s2l "start" ∈ l →
  Forall (λ n, is_Some (T !! n) ∧ Forall (λ r, Forall (λ m, m ∈ l) (jump_names (r_action r))) (default [] (T !! n))) l →
  ∀ n, used T n → is_Some (T !! n).
Proof.
  intros Hs Hl n Hn. rewrite Forall_forall in Hl.
  assert (∀ x y, rtc (jumps T) x y → x ∈ l → y ∈ l) as H.
  { induction 1 as [x|x y z Hxy _ IH]; [done|]. intros Hx. apply IH. destruct (Hl x Hx) as [_ H].
    apply jumps_spec in Hxy as (r & Hm & Hr)%elem_of_list_bind. rewrite Forall_forall in H. specialize (H r Hr).
    rewrite Forall_forall in H. by apply H. }
  apply Hl. by apply (H (s2l "start")).
Qed.

(** Tables that are accepted although they should not be. *)
Definition rx_gone : table := {[ s2l "start" := [rule1 PTrue (AAll [AJump (s2l "gone")])] ]}.
Definition rx_loop : table := {[ s2l "start" := [rule1 PTrue (AJump (s2l "start"))] ]}.
Lemma rx_loop_chain X ho n c : apply_chain X ho rx_loop n (s2l "start") c = None.
Proof.
  revert c. induction n as [|n IH]; intros c; [done|]. cbn [apply_chain].
  change (rx_loop !! s2l "start") with (Some [rule1 PTrue (AJump (s2l "start"))]).
  cbn [apply_rules]. unfold apply_rule, rule1. cbn [r_predicate is_match r_action apply_action]. rewrite IH. done.
Qed.

(** Files that include each other, with a shared one. *)
Definition rx_open (p : str) : option (list entry) :=
  snd <$> find (λ e, str_eqb e.1 p)
   [ (s2l "/r/main", [EInclude (s2l "a"); EChain (s2l "start") rx_start; EInclude (s2l "b")]);
     (s2l "/r/a", [EInclude (s2l "shared"); EInclude (s2l "main")]);
     (s2l "/r/b", [EInclude (s2l "shared"); EChain (s2l "b") []]);
     (s2l "/r/shared", [EChain (s2l "sub") rx_sub]);
     (s2l "/r/twice", [EInclude (s2l "shared"); EChain (s2l "sub") []]);
     (s2l "/r/err", [EChain (s2l "start") [rule1 (is_account food) (AError (s2l "no food"))]]) ].
Definition rx_canonical (p : str) : option str := if rx_open p then Some p else None.
Definition rx_F : rules_fs :=
  RulesFs rx_open rx_canonical (λ _, Some (s2l "/r")) (λ d p, d ++ s2l "/" ++ p).
Definition rx_paths : list str := s2l <$> ["/r/main"; "/r/a"; "/r/b"; "/r/shared"; "/r/twice"; "/r/err"]%string.
Lemma rx_one : one_file rx_F.
Proof. intros p q. cbn. unfold rx_canonical. destruct (rx_open p); [|done]. by intros [= ->]. Qed.
Lemma rx_all : all_paths rx_F rx_paths.
Proof.
  intros p q. cbn. unfold rx_canonical. destruct (rx_open p) eqn:E; [|done]. intros [= <-]. unfold rx_open in E.
  apply fmap_Some in E as (e & He & _). apply find_some in He as [Hin Heq].
  unfold str_eqb in Heq. apply bool_decide_eq_true in Heq. subst p. apply elem_of_list_In in Hin.
  repeat (apply elem_of_cons in Hin as [-> | Hin]; [by_compute|]). by apply elem_of_nil in Hin.
Qed.

(** A journal and what the rules make of it. *)
Definition rx_out : list transaction_postings :=
  match update_transactions rx_X default_order rx_T 2 ex_s0 with Some (Ok l) => l | _ => [] end.
Definition rx_E : env := ex_env (ex_c0 ++ [(s2l "RULED", into_ledger default_order rx_out)]).

Lemma c55_refuted : ∃ T tps, ∀ X ho n, hash_order_ok ho → 2 ≤ n →
  validate ho T = Ok tt ∧ update_transactions X ho T n tps = Some (Err EChainNotFound).
Proof.
  exists rx_gone, [ex_tp day1 [] [ex_post bank 1 []]]. intros X ho n Hho Hn. split.
  - apply validate_spec; [done|]. split; [by eexists|]. intros m rs r j Hm Hr Hj. unfold rx_gone in Hm.
    apply lookup_singleton_Some in Hm as [<- <-]. apply elem_of_list_singleton in Hr as ->. done.
  - destruct n as [|[|n]]; [lia|lia|]. done.
Qed.
Lemma c56_refuted : ∃ T tps, ∀ X ho n, hash_order_ok ho →
  validate ho T = Ok tt ∧ update_transactions X ho T n tps = None.
Proof.
  exists rx_loop, [ex_tp day1 [] [ex_post bank 1 []]]. intros X ho n Hho. split.
  - apply validate_spec; [done|]. split; [by eexists|]. intros m rs r j Hm Hr Hj. unfold rx_loop in Hm.
    apply lookup_singleton_Some in Hm as [<- <-]. apply elem_of_list_singleton in Hr as ->. injection Hj as <-. by eexists.
  - cbn [update_transactions]. unfold update_transaction.
    change (rx_loop !! START_CHAIN) with (Some [rule1 PTrue (AJump (s2l "start"))]). cbn [ex_tp tp_posts tp_trn update_posts].
    change START_CHAIN with (s2l "start"). rewrite rx_loop_chain. done.
Qed.
Lemma c73_ex : validate default_order rx_T = Ok tt ∧ (∀ name, used rx_T name → is_Some (rx_T !! name)) ∧
  (∀ name rs r m, rx_loop !! name = Some rs → r ∈ rs → within (AJump m) (r_action r) → r_action r = AJump m).
Proof.
  split_and!.
  - by_compute.
  - apply (used_closed _ [s2l "start"; s2l "sub"]); by_compute.
  - intros name rs r m Hm Hr Hw. unfold rx_loop in Hm. apply lookup_singleton_Some in Hm as [<- <-].
    apply elem_of_list_singleton in Hr as ->. cbn in *. by inversion Hw.
Qed.
Lemma c74_ex : ∀ name, used rx_T name → ¬ tc (jumps rx_T) name name.
Proof.
  intros name _. apply (ranked_acyclic _ (λ n, if str_eqb n (s2l "start") then 1 else 0)). by_compute.
Qed.
