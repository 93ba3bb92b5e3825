(** C154 when fmt ends with an error. *)
From stdpp Require Import gmap list.
From Verif Require Import Base Types MergeModel CmdModel RulesModel CmdClaims CmdProofs CmdFp TidyClaims Tidy.

Lemma file_puts p s w : ∀ q, w_files (steps w (put (Path p) <$> s)) !! q = if decide (p = q) then (match s with [] => w_files w !! q | _ => Some (default [] (w_files w !! q) ++ s) end) else w_files w !! q.
Proof.
  revert w. induction s as [|c s IH]; intros w q; [by destruct (decide (p = q))|]. rewrite fmap_cons. unfold steps in *. cbn [foldl]. rewrite IH.
  cbn [step put w_files]. destruct (decide (p = q)) as [->|Hne]; [|by rewrite lookup_insert_ne].
  rewrite lookup_insert. destruct s; [done|]. cbn [default]. unfold default, id. by rewrite <- app_assoc.
Qed.
(** A write without a write fault changes nothing, or leaves the text in the file. *)
Lemma write_whole E p s w es r : write_file E (Path p) s w = (es, r) → r = Ok tt ∨ f_write E (Path p) = None →
  w_stdin (steps w es) = w_stdin w ∧ (es = [] ∧ r ≠ Ok tt ∨ r = Ok tt ∧ ∀ q, w_files (steps w es) !! q = if decide (p = q) then Some s else w_files w !! q).
Proof.
  intros Hw Hr. split; [pose proof (stdin_write E p s w) as H; by rewrite Hw in H|]. revert Hw Hr.
  unfold write_file, io_bind, writer. destruct (f_create E p); [intros [= <- <-] _; by left|]. unfold write_all.
  assert (∀ q, w_files (steps w ([EvCreate p] ++ (put (Path p) <$> s))) !! q = if decide (p = q) then Some s else w_files w !! q) as H.
  { intros q. unfold steps. rewrite foldl_app. pose proof (file_puts p s (steps w [EvCreate p]) q) as H. unfold steps in H. etransitivity; [exact H|]. cbn [foldl step w_files].
    destruct (decide (p = q)) as [->|Hne]; [rewrite lookup_insert; by destruct s|by rewrite lookup_insert_ne]. }
  destruct (f_write E (Path p)) as [n|]; [destruct (n <? length s)%nat|]; intros [= <- <-] [?|?]; try done; right; by split.
Qed.
Lemma fmt_alike E js : ∀ w es r, fmt_cmd E (Path <$> js) w = (es, r) → r = Ok tt ∨ (∀ p, p ∈ js → f_write E (Path p) = None) →
  (∀ p text l, p ∈ js → w_files w !! p = Some text → e_parse E text = Some l → e_parse E (e_print E l) = Some l) →
  world_alike E w (steps w es).
Proof.
  induction js as [|p js IH]; intros w es r; [intros [= <- <-] _ _; split; [done|]; by left|]. rewrite fmap_cons. cbn [fmt_cmd]. unfold io_bind at 1.
  assert (world_alike E w w) as Hrefl by (split; [done|]; by left).
  assert (∃ r', read_ledger E (Path p) w = ([], r') ∧ ∀ l, r' = Ok l → ∃ t, w_files w !! p = Some t ∧ e_parse E t = Some l) as (r' & -> & Hl).
  { unfold read_ledger, io_bind, read_file. destruct (f_read E (Path p)); [by eexists|]. destruct (w_files w !! p) as [t|]; [|by eexists].
    eexists. split; [reflexivity|]. intros l. destruct (e_parse E t) eqn:Ht; cbn; [intros [= ->]|done]. by exists t. }
  destruct r' as [l|e|]; [|by intros [= <- <-]..]. destruct (Hl l eq_refl) as (t & Ht & Hp). unfold io_bind, write_ledger. change (steps w []) with w.
  destruct (write_file E (Path p) (e_print E l) w) as [es1 r1] eqn:Hw. intros Hrun Hr Hb.
  assert (r1 = Ok tt ∨ f_write E (Path p) = None) as Hr1.
  { destruct Hr as [->|Hr]; [left|right; apply Hr; left]. destruct r1 as [[]|e|]; [done|by inversion Hrun..]. }
  destruct (write_whole E p _ w es1 r1 Hw Hr1) as [Hs [[-> Hbad]|[-> Hf]]].
  - destruct r1 as [[]|e|]; [done|by injection Hrun as <- <-..].
  - destruct (fmt_cmd E (Path <$> js) (steps w es1)) as [es2 r2] eqn:H2. injection Hrun as <- <-. cbn [app].
    assert (e_parse E (e_print E l) = Some l) as Hback by (eapply Hb; [left|done|done]).
    destruct (IH _ _ _ H2) as [Hs2 Hf2].
    + destruct Hr as [?|Hr]; [by left|right]. intros q Hq. apply Hr. by right.
    + intros q text l' Hq. rewrite Hf. destruct (decide (p = q)) as [->|Hne].
      * intros [= <-]. rewrite Hback. by intros [= <-].
      * apply Hb. by right.
    + unfold steps in *. rewrite foldl_app. split; [by rewrite <- Hs2, Hs|]. intros q. pose proof (Hf2 q) as Hq. rewrite (Hf q) in Hq.
      destruct (decide (p = q)) as [->|Hne]; [|exact Hq]. right. exists t.
      destruct Hq as [Hq|(a & b & [= <-] & Hq & He)]; [exists (e_print E l); by rewrite <- Hq, Hback|].
      exists b. by rewrite <- He, Hback.
Qed.
Lemma c154_whatever E X F js w es r cs : fmt_cmd E (Path <$> js) w = (es, r) → r = Ok tt ∨ (∀ p, p ∈ js → f_write E (Path p) = None) →
  (∀ p text l, p ∈ js → w_files w !! p = Some text → e_parse E text = Some l → e_parse E (e_print E l) = Some l) →
  run_commands E X F (steps w es) cs = run_commands E X F w cs.
Proof. intros H1 H2 H3. symmetry. apply same_commands. by eapply fmt_alike. Qed.
