(** What becomes of value tags without a value (C34). *)
From Verif Require Import MergeClaims.
From Verif Require Import Base Types SpecBase BaseProofs StrProofs CommentModel CommentClaims CommentTextClaims CommentProofs CommentLaws CommentText CommentTags
  RereadClaims Reread RewriteClaims Rewrite.
Local Open Scope nat_scope.

Lemma conv_value_line l k w : conv l = Some (k, w) → value_line k l.
Proof. unfold conv. destruct (value_tag_rx l) as [[k' v']|] eqn:E; [|done]. intros [= <- <-]. by apply value_tag_rx_line in E. Qed.
Lemma rest_sub c l : l ∈ rest c → l ∈ lines c.
Proof. intros H. rewrite <- firsts_rest. apply elem_of_app. by right. Qed.
Lemma blank_lost ho c k v : hash_order_ok ho → ordinary c → value_tags c !! k = Some v → trim v = [] →
  (∀ l k', l ∈ lines c → value_line k' l → trim k' ≠ trim k) →
  (∀ k' v', value_tags c !! k' = Some v' → trim k' = trim k → k' = k) →
  let c' := from_opt_comment (into_opt_comment ho c) in value_tags c' !! k = None ∧ trim k ++ [colon] ∈ lines c'.
Proof.
  intros Hho Ho Hk Hv Hl Hu. cbv zeta. rewrite (reread_step ho c Hho Ho). split.
  - destruct (value_tags (step c) !! k) as [w|] eqn:E; [|done]. exfalso. unfold step in E. cbn [value_tags] in E. apply puts_in in E as [E|E].
    + apply puts_in in E as [E|E]; [by rewrite lookup_empty in E|]. apply elem_of_list_omap in E as (l & Hin & Hc). apply (Hl l k); [by apply rest_sub|by eapply conv_value_line|done].
    + apply elem_of_list_omap in E as ([k' v'] & Hp%vals_spec & E). unfold written_pair in E. cbn [fst snd] in *. case_decide as Hne; [done|]. injection E as Ek _.
      assert (k' = k) as -> by (apply (Hu k' v' Hp); rewrite <- Ek; by rewrite trim_trim). congruence.
  - unfold step. cbn [lines]. rewrite !elem_of_app. right. right. apply elem_of_list_omap. exists (k, v). split; [by apply vals_spec|].
    unfold written_blank. cbn [fst snd]. by rewrite decide_True.
Qed.
