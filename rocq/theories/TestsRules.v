(** The unit tests of src/rules/table/mod.rs (273-760) and
    src/rules/table/predicate.rs (76-124) run on the model.  Journals are given
    by descriptions, accounts and comment texts. *)
From stdpp Require Import gmap list.
From Verif Require Import Base Types CommentModel MergeModel CmdModel MergeExamples RulesModel RulesExamples.

Definition note (l : list string) : comment := from_opt_comment (Some (join [NL] (map s2l l))).
Definition trn (desc : string) (com : list string) (acct : string) (pcom : list string) : transaction_postings :=
  TP (TI (Transaction None (2001%Z, 1, 2) None None None (s2l desc) []) (note com))
     [PI (Posting (s2l acct) Real (Some (ex_amount 100)) None None None) (note pcom)].
Definition eq_account (s : string) := PAccount (MEq (s2l s)).
Definition eq_desc (s : string) := PDescription (MEq (s2l s)).
Definition set (s : string) := ASetAccount (s2l s).
Definition update (T : table) := update_transactions rx_X default_order T 3.
Definition start (rs : list rule) : table := {[ s2l "start" := rs ]}.
Definition one (T : table) (d a a' : string) (pcom : list string) : Prop :=
  update T [trn d [] a pcom] = Some (Ok [trn d [] a' pcom]).

Example empty_chain : one (start []) "description" "anything" "anything" []. Proof. unfold one; by_compute. Qed.
Example set_account_ : one (start [rule1 PTrue (set "foo")]) "description" "anything" "foo" []. Proof. unfold one; by_compute. Qed.
Example set_account_in_jumped_chain :
  one {[ s2l "start" := [rule1 PTrue (AJump (s2l "some-chain"))]; s2l "some-chain" := [rule1 PTrue (set "foo")] ]}
    "description" "anything" "foo" [].
Proof. unfold one; by_compute. Qed.
Example return_before_set_account : one (start [rule2 PTrue ANoop; rule1 PTrue (set "foo")]) "description" "original:value" "original:value" [].
Proof. unfold one; by_compute. Qed.
Definition by_account := start [rule1 (eq_account "foo") (set "assets:foo"); rule1 (eq_account "bar") (set "assets:bar")].
Example set_account_based_on_input_account :
  one by_account "description" "foo" "assets:foo" [] ∧ one by_account "description" "bar" "assets:bar" [] ∧
  one by_account "description" "quux" "quux" [].
Proof. split_and!; unfold one; by_compute. Qed.
Definition conditions := start
  [ rule2 (PAll [eq_account "acct1"; eq_desc "bank1"]) (set "assets:acct1-bank1");
    rule2 (PAll [eq_account "acct1"; eq_desc "bank2"]) (set "assets:acct1-bank2");
    rule2 (PAll [eq_account "acct2"; eq_desc "bank1"]) (set "assets:acct2-bank1");
    rule2 (PAll [eq_account "acct2"; eq_desc "bank2"]) (set "assets:acct2-bank2");
    rule2 (PAny [eq_account "acct3"; eq_account "acct4"]) (set "assets:acct3-or-4");
    rule2 (PAll [PNot (eq_account "acct1"); PNot (eq_account "acct2"); eq_desc "bank1"]) (set "assets:acct-other-bank1") ].
Example set_account_based_on_various_boolean_conditions :
  one conditions "unmatched" "acct1" "acct1" [] ∧ one conditions "bank1" "acct1" "assets:acct1-bank1" [] ∧
  one conditions "bank1" "acct2" "assets:acct2-bank1" [] ∧ one conditions "bank2" "acct2" "assets:acct2-bank2" [] ∧
  one conditions "description" "acct3" "assets:acct3-or-4" [] ∧
  one conditions "description" "assets:acct3-or-4" "assets:acct3-or-4" [] ∧
  one conditions "bank1" "acct5" "assets:acct-other-bank1" [].
Proof. split_and!; unfold one; by_compute. Qed.
Definition by_tag : table :=
  {[ s2l "start" := [rule2 (PHasValueTag (s2l "bank")) (AJump (s2l "set-bank")); rule2 PTrue (set "assets:unknown")];
     s2l "set-bank" := [rule2 (PValueTag (s2l "bank") (MEq (s2l "foo"))) (set "assets:bank:foo");
                        rule2 (PValueTag (s2l "bank") (MEq (s2l "bar"))) (set "assets:bank:bar");
                        rule2 PTrue (set "assets:bank:other")] ]}.
Example set_bank_based_on_tag_value :
  one by_tag "description" "someaccount" "assets:bank:foo" ["bank: foo"%string] ∧
  one by_tag "description" "someaccount" "assets:bank:bar" ["bank: bar"%string] ∧
  one by_tag "description" "someaccount" "assets:bank:other" ["bank: quux"%string] ∧
  one by_tag "description" "someaccount" "assets:unknown" [].
Proof. split_and!; unfold one; by_compute. Qed.
Example remove_value_tag : update (start [rule2 PTrue (ARemovePostValue (s2l "name1"))])
    [ trn "description1" ["name1: transaction tag not removed"%string] "someaccount"
        ["name1: posting tag removed"; "name2: unrelated tag not removed"]%string;
      trn "description2" [] "someaccount" [] ] =
  Some (Ok [ trn "description1" ["name1: transaction tag not removed"%string] "someaccount"
        ["name2: unrelated tag not removed"]%string;
      trn "description2" [] "someaccount" [] ]).
Proof. by_compute. Qed.
Example set_based_on_flag_tag : update (start [rule2 (PHasFlagTag (s2l "tag1")) (set "matched")])
    [ trn "description1" [] "someaccount" [":tag1: posting tag matches"]%string;
      trn "description2" [":tag1: transaction tag not matched"]%string "someaccount" [] ] =
  Some (Ok [ trn "description1" [] "matched" [":tag1: posting tag matches"]%string;
      trn "description2" [":tag1: transaction tag not matched"]%string "someaccount" [] ]).
Proof. by_compute. Qed.
Example remove_flag_tag : update (start [rule2 PTrue (ARemovePostFlag (s2l "tag1"))])
    [ trn "description1" [":tag1: transaction tag not matched"]%string "someaccount"
        [":tag1: posting tag removed"; ":tag2: unrelated tag not removed"]%string;
      trn "description2" [] "someaccount" [] ] =
  Some (Ok [ trn "description1" [":tag1: transaction tag not matched"]%string "someaccount"
        [":tag2: posting tag removed"; "unrelated tag not removed"]%string;
      trn "description2" [] "someaccount" [] ]).
Proof. by_compute. Qed.

Example error_action : update (start [rule2 (eq_account "bad:account") (AError (s2l "MY ERROR"))])
    [ex_tp day1 (s2l "transaction") [ex_post (s2l "good:account") 10 []; ex_post (s2l "bad:account") (-10) []]] = Some (Err ERuleError).
Proof. by_compute. Qed.
Example validate_valid_tables : validate default_order (start []) = Ok tt ∧
  validate default_order {[ s2l "start" := [rule1 PTrue (AJump (s2l "foo"))]; s2l "foo" := [] ]} = Ok tt.
Proof. split; by_compute. Qed.
Example validate_invalid_tables : validate default_order {[ s2l "foo" := [] ]} = Err EChainNotFound ∧
  validate default_order {[ s2l "start" := [rule1 PTrue (AJump (s2l "foo"))]; s2l "foo" := [rule1 PTrue (AJump (s2l "not-exist"))] ]}
  = Err EChainNotFound.
Proof. split; by_compute. Qed.

Definition simple_posting : rctx :=
  let t := trn "Transaction description" [] "account:name"
    [":flag-tag:"; "value-tag: value-tag-value"; "non-shouty-key: shouty-value"; "shouty-key: SHOUTY-VALUE"]%string in
  RCtx (tp_trn t) (hd (ex_post [] 0 []) (tp_posts t)).
Definition matches_ (p : predicate) : bool := is_match rx_X default_order p simple_posting.
Definition value (k : string) (m : string_match) := PValueTag (s2l k) m.
Example predicate_ : forallb (λ '(p, b), Bool.eqb (matches_ p) b)
  [ (PAccount (MContains (s2l "name")), true); (PAccount (MContains (s2l "other")), false);
    (eq_account "account:name", true); (eq_account "account:other", false);
    (PAccount (MMatches (s2l "name")), true); (PAccount (MMatches (s2l "^name")), false);
    (PNot PTrue, false);
    (PFlagTag (MMatches (s2l "^flag-")), true); (PFlagTag (MMatches (s2l "^no-such-flag")), false);
    (PHasFlagTag (s2l "flag-tag"), true); (PHasFlagTag (s2l "other-flag-tag"), false);
    (PHasValueTag (s2l "value-tag"), true); (PHasValueTag (s2l "other-value-tag"), false);
    (value "value-tag" (MEq (s2l "value-tag-value")), true); (value "value-tag" (MEq (s2l "other-value-tag-value")), false);
    (value "other-value-tag" (MEq (s2l "value-tag-value")), false);
    (value "non-shouty-key" (MAsLower (MContains (s2l "shouty-value"))), true);
    (value "shouty-key" (MAsLower (MContains (s2l "shouty-value"))), true);
    (value "shouty-key" (MAsLower (MContains (s2l "SHOUTY-VALUE"))), false);
    (eq_desc "Transaction description", true); (eq_desc "non transaction description", false); (PTrue, true) ] = true.
Proof. by_compute. Qed.
