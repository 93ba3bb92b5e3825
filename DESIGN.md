# Formal model of huin/accountmerge in Rocq (Coq 8.16)

## Layout

`rocq/theories/`

| file | content |
|---|---|
| `Base.v` | result type (Ok / Err / Panic), strings as lists of Unicode code points, trim, split, join, stable sort, hash iteration orders |
| `Types.v` | decimals, ledger types, internal types, tags |
| `CommentModel.v` / `CommentProofs.v` / `PropsComment.v` | `comment.rs` |
| `MergeModel.v` / `Merge*Proofs.v` / `PropsMerge.v` | `merge/{merger,posting,transaction,matchset}.rs` |
| `CmdModel.v` / `CmdClaims.v` / `Cmd*.v` / `PropsCmd.v` | `merge/{cmd,sources}.rs`, `filespec.rs`, `fmt.rs`, `fpgen.rs`, `internal.rs`, `ledgerutil.rs`, `importers/cmd.rs`; a file system with crash points |
| `Sha1.v`, `FingerprintModel.v` / `FingerprintClaims.v` / ... / `PropsFingerprint.v` | `fingerprint.rs` with SHA-1 and base64 computed for real |
| `NwCsvModel.v`, `PaypalModel.v`, `TzModel.v` / `ImportClaims.v` / `Import*.v`, `TzLaws.v` / `PropsImport.v` | `importers/nationwide_csv.rs`, `importers/nationwide.rs`, `importers/paypal_csv.rs`, `tzabbr.rs` |
| `RulesModel.v` / `RulesClaims.v` / `Rules*.v` / `PropsRules.v` | `rules/table/{mod,predicate,ctx,source}.rs`, `rules/cmd.rs` |
| `OcrModel.v`, `PdfModel.v` / `OcrClaims.v`, `PdfClaims.v` / `Ocr*.v`, `Pdf*.v` / `PropsOcr.v`, `PropsPdf.v` | `importers/tesseract.rs` (records to a tree), `importers/nationwide_pdf.rs` |
| `ImporterModel.v` / `ImporterClaims.v` / `Importer*.v` / `PropsImporter.v` | how the importers read their files and run programs, `importers/nationwide.rs` (option) |
| `EditClaims.v`, `WindowClaims.v`, `StatementClaims.v` / `MergeEdit.v`, `RulesEdit.v`, `MergeDays.v`, `ImportDays.v`, `PaypalDays.v` / `PropsWorkflow.v` | repeated runs of the above |
| `HeaderClaims.v`, `WorkCmdClaims.v` / `HeaderLaws.v`, `CmdPlain.v`, `WorkCmd.v` / `PropsWorkCmd.v` | the same by the commands, through files |
| `CommentTextClaims.v`, `LayoutClaims.v`, `DetailClaims.v` / `CommentText.v`, `CommentLayout.v`, `ImportDetails.v` / `PropsText.v`, `PropsLayout.v` | the text of comments; what imported postings say of their rows |
| `HistoryClaims.v` / `History.v`, `HistoryStep.v`, `HistoryOrder.v` / `PropsHistory.v` | whole histories of merges |
| `ReRun.v` / `ReRunExamples.v` / `PropsReRun.v` | the merge command run again |
| `PartsClaims.v` / `Renum.v`, `RenumInit.v`, `Parts.v` / `PropsParts.v` | merging in several runs |
| `PipeClaims.v` / `Pipe.v` / `PipeExamples.v` / `PropsPipe.v` | import, rules and merge in a row |
| `PdfI32Model.v` / `PdfI32Claims.v` / `PdfI32.v` / `PdfI32Examples.v` / `PropsI32.v` | PDF import with coordinates as `i32`, with and without overflow checks |
| `PiecesClaims.v` / `Pieces.v` / `PiecesOrder.v` / `PiecesExamples.v` / `PropsPieces.v` | one set merged in pieces, in any order |
| `ResolveAllClaims.v` / `ResolveAll.v` / `ResolveAllCmd.v` / `ResolveAllExamples.v` / `PropsResolveAll.v` | all that was handed back is resolved at once |
| `TwinClaims.v` / `Twin.v` / `TwinExamples.v` / `PropsTwin.v` | the same payments from two sources |
| `StmtTwinClaims.v` / `StmtTwin.v` / `StmtTwinExamples.v` / `PropsStmtTwin.v` | one statement in two formats |
| `PdfDaysClaims.v` / `PdfDays.v` / `PdfDaysExamples.v` / `PropsPdfDays.v` | overlapping PDF statements |
| `PostClaims.v` / `PostLaws.v` / `PropsPost.v` | what of a posting merging looks at |
| `CommentTags.v` / `RereadClaims.v` / `Reread.v` / `PropsReread.v` | merging what was written and read again |
| `TimeClaims.v` / `TimeProofs.v` / `PropsTime.v` | dates, times and zones of PayPal rows |
| `HandClaims.v` / `Hand.v` / `HandExamples.v` / `PropsHand.v` | generate-fingerprints on a journal written by hand, then merging a statement |
| `RewriteClaims.v` / `Rewrite.v` / `BlankValues.v` / `PropsRewrite.v` | reading and writing comments any number of times |
| `RegexModel.v` / `RegexClaims.v` / `RegexLaws.v`, `RegexEngine.v`, `RegexDigit.v` / `PropsRegex.v` | the regular expressions of the source, parsed and matched |
| `MutCellModel.v` / `MutCellLaws.v`, `CmdOrder.v` / `PropsRepeat.v` | `mutcell.rs`; the merge command under other hash orders |
| `ResolveClaims.v` / `MergeResolve.v` / `ResolveExamples.v` / `PropsResolve.v` | what was handed back is edited and merged again |
| `NsClaims.v` / `NsLaws.v` | fingerprint namespaces of accounts (C42) |
| `RearrangeClaims.v` / `Rearrange.v` / `RearrangeExamples.v` / `PropsRearrange.v` | tables of rules with the same effect |
| `LibClaims.v` / `Lib.v` / `PropsLib.v` | the library functions that the model defines itself do what they are documented to do (no claim of its own) |
| `PdfWorkClaims.v` / `PdfWork.v`, `PipePdf.v` / `PropsPdfWork.v` | PDF statements imported to files and merged, with rules in between |
| `DateOrder.v` / `PropsDate.v` | the order of dates is the order of days |
| `AccountedClaims.v` / `Accounted.v` / `Accounted2.v` / `PropsAccounted.v` | where everything goes that the merge command reads |
| `ExampleRulesModel.v` / `ExampleRulesClaims.v` / `ExampleRules.v` / `ExampleRulesUse.v` / `ExampleRulesExamples.v` / `PropsExampleRules.v` | examples/rules.ron, what it does to a journal and to imported statements |
| `RulesOrderClaims.v` / `RulesOrder.v` / `RulesOrderExamples.v` / `PropsRulesOrder.v` | rules before or after merging |
| `AgainClaims.v` / `Again.v` / `AgainCmd.v` / `PropsAgain.v` | the same rules again |
| `ExactClaims.v` / `Exact.v` / `ExactFile.v` / `PropsExact.v` | exactly which comments and transactions come back as written |
| `PaypalPeers.v` / `PropsPeers.v` | PayPal imports without legacy fingerprints: which postings lack one, and why they cannot be merged |
| `SameFpClaims.v` / `SameFp.v` / `SameFpExamples.v` / `PropsSameFp.v` | exactly which imported postings have a fingerprint in common |
| `CutClaims.v` / `Cut.v` / `PropsCut.v` | which fingerprints a cut within a day changes |
| `MatchIterModel.v` / `MatchIterClaims.v` / `MatchIter.v` / `PropsMatchIter.v` | the iterators of `merge/matchset.rs` |
| `FreeOrderModel.v` / `FreeClaims.v` / `FreeOrder.v` / `FreeCmd.v` / `PropsFree.v` | merging and the merge command with an order of its own for every iteration over a hash table |
| `NsUseClaims.v` / `NsUse.v` / `PropsNsUse.v` | the namespace the importers use (C97), the names of sources (C26) |
| `NwI64Model.v` / `NwI64Claims.v` / `NwI64.v` / `NwI64Examples.v` / `PropsI64.v` | Nationwide CSV statements with numbers of 64 and 32 bits, with and without overflow checks |
| `DatesClaims.v` / `Dates.v` / `DatesExamples.v` / `PropsDates.v` | exactly when postings are found under the dates of their transactions (C19) |
| `Settle.v` / `PropsSettle.v` | exactly which comments settle when they are written again and again (C35, C119) |
| `RetryClaims.v` / `Retry.v` / `PropsRetry.v` | commands that are run again after failing or being interrupted |
| `FpTypesModel.v` / `FpTypesClaims.v` / `FpTypes.v` / `PropsFpTypes.v` | all implementations of Fingerprintable, chains of `with` |
| `ScriptClaims.v` / `Script.v` / `PropsScript.v` | scripts of several commands |
| `StmtTwinCmd.v`, `StmtTwinCmdExamples.v`, `PropsStmtTwinCmd.v` | C113 for the commands: a CSV and a PDF statement imported to files, the files merged |
| `TwinCmd.v`, `PropsTwinCmd.v` | C112 for the merge command |
| `BooksClaims.v` / `Books.v` / `BooksCmd.v` / `PropsBooks.v` | sums of amounts over merges |
| `AssertClaims.v` / `Assert.v` / `Assert2.v` / `AssertExamples.v` / `PropsAssert.v` | balance assertions in merged journals |
| `AccountsClaims.v` / `Accounts.v` / `Accounts2.v` / `Accounts3.v` / `AccountsExamples.v` / `PropsAccounts.v` | several accounts in one journal |
| `YearClaims.v` / `Year.v` / `Year2.v` / `YearExamples.v` / `PropsYear.v` | a script for several accounts |
| `PdfMoneyClaims.v` / `PdfMoney.v` / `PdfMoneyExamples.v` / `PropsPdfMoney.v` | amounts of PDF statements |
| `KeptClaims.v` / `Kept.v` / `KeptCmd.v` / `KeptExamples.v` / `KeptCmdExamples.v` / `KeptImports.v` / `PropsKept.v` / `PropsKeptImports.v` | journals kept over time |
| `LivedClaims.v` / `Lived.v` / `LivedCmd.v` / `LivedExamples.v` / `PropsLived.v` | journals with any history |
| `ReturnClaims.v` / `Return.v` / `ReturnExamples.v` / `PropsReturn.v` | payments deleted from a journal |
| `LastAgain.v` / `PropsLastAgain.v` | the last inputs merged again, merging in place |
| `AsideClaims.v` / `Aside.v` / `Aside2.v` / `AsideExamples.v` / `PropsAside.v` | transactions that do not concern what is merged |
| `AnyOrderClaims.v` / `AnyOrder.v` / `PropsAnyOrder.v` | inputs that do not concern each other |
| `RelLaws.v` / `RenameClaims.v` / `Rename.v` / `PropsRename.v` | renaming accounts and currencies |
| `PlaceClaims.v` / `Place.v` / `PropsPlace.v` | place and size of recognised text |
| `HandedClaims.v` / `Handed.v` / `PropsHanded.v` | merging without what is handed back |
| `RetagClaims.v` / `Retag.v` / `RetagCmd.v` / `PropsRetag.v` | renaming flag tags and fingerprints |
| `RedateClaims.v` / `Redate.v` / `RedateCmd.v` / `PropsRedate.v` | moving dates |
| `FigureClaims.v` / `Figures.v` / `PropsFigures.v` | other amounts |
| `DivideClaims.v` / `Divide.v` / `PropsDivide.v` | dividing rules among files |
| `SeenClaims.v` / `Seen.v` / `PropsSeen.v` | what rules look at |
| `LegacyClaims.v` / `Legacy.v` / `PropsLegacy.v` | the option for legacy fingerprints |
| `ZoneClaims.v` / `Zone.v` / `PropsZone.v` | the output time zone of PayPal imports |
| `FewerClaims.v` / `Fewer.v` / `Upgrade.v` / `PropsUpgrade.v` / `UpgradeCmd.v` / `PropsUpgradeCmd.v` | journals with older fingerprints |
| `DrawnClaims.v` / `Drawn.v` / `PropsDrawn.v` / `DrawnCmd.v` / `PropsDrawnCmd.v` | the ids that generate-fingerprints draws |
| `CopiesClaims.v` / `Copies.v` / `PropsCopies.v` / `CopiesCmd.v` / `PropsCopiesCmd.v` | copies of a journal with fingerprints generated separately |
| `TidyClaims.v` / `Tidy.v` / `PropsTidy.v` / `TidyFail.v` / `PropsTidyFail.v` | running fmt before other commands, also when it fails |
| `*Claims.v`, `SpecBase.v` | the specification vocabulary of the theorem statements |
| `*Examples.v`, `Tests*.v` | literals for the examples; the repository's own unit tests, computed in the model |

Model files hold definitions only, each with a comment citing the file and lines of /repo
modelled and any simplification. `SpecBase.v` and the `*Claims.v` files hold the small independent
specification vocabulary used in the theorem statements. `Props*.v` files hold only the property theorems
(closed by `exact lemma`), the concrete examples that meet their hypotheses, and
`Print Assumptions`.

## Method, by property

Panics are explicit outcomes (`Panic`), errors are `Err kind`. Every API call that takes
`&mut self` is modelled as a function returning the new state *and* the outcome, so that the
state left behind by a failing call is visible. Histories are lists of API calls starting from
`Merger::new`. Hash iteration is an arbitrary function that lists the elements of a set or map
in some order (a theorem quantifies over it). Files are a map from paths to contents plus a trace
of primitive effects (truncate, append), a crash point is a prefix of the trace.

* C01, C02, C04, C24: representation invariant of the merger (fingerprint index exact, date
  index exact, postings partitioned among transactions), preserved by every merge; apply phase
  proved unable to fail after the check phase.
* C03: specification by scanning all existing postings (the README text), proved equal to the
  index based lookup in every reachable state.
* C05, C10, C20, C23: induction over the apply phase, stated on built journals.
* C06, C09, C18: idempotence from the posting-level law and a simulation between a merger and
  one re-fed with its output.
* C07, C08: `build` = stable sort by date of the insertion sequence; the order of dates is that of the days of the calendar.
* C11-C16: characterisation of the pending phase.
* C17: two runs with different hash orders.
* C19: refuted by a witness history (`_refuted`); proved instead: exactly when a call, and a history of calls, keeps postings recorded under the dates of their transactions, and that the rule holds then.
* C21, C22: algebra of the posting merge and soft match.
* C25-C30: command model over an effect trace.
* C31-C37: scanner model of the two regular expressions, induction on strings. C31_exact (both directions) from the function that C119 computes with: a comment comes back iff one step leaves it alone.
* C38-C42: injectivity of the byte encodings, base64 and tag syntax; SHA-1 is computed, equality of
  digests is turned into an explicit collision.
* C43-C52: fold models of the importers. Violations are stated as `_refuted` with a witness.
* C53-C59, C73-C75: a fuelled evaluator of the rule language (fuel bounds the nesting of chains;
  `None` is "not ended yet") proved equivalent to a declarative big-step relation. C55 and C56 are
  false of the code (witnesses); C73 and C74 are the true statements behind them. The loader of rule
  files is proved against the set of files reachable by includes.
* C60-C63, C67, C68: direct models.
* C72: C29 is false of the code (a crash between truncation and the last write loses the
  journal); this is what does hold, by induction over the list of journals.
* C69-C71: corollaries of the importer and merge models; the exact true
  conditions behind C47 and C49, which are false of the code as stated.
* C64-C66, C76-C83: fold models of the OCR tree and of the PDF statement accumulator, proved equal to
  declarative descriptions (parts in an order; a table under a header; lines grouped by the lines with a
  payment or receipt). C65 is false of the code (witness); C76 is the true statement behind it.
* C84-C89: histories. A run of merges is `clean_run`; edits are a placement of the old postings in the new
  journal (`EditClaims.v`); overlapping statements are windows of a list of days (`WindowClaims.v`,
  `StatementClaims.v`). C84 generalises the replay invariant of C18; C86 is an induction over the windows with
  the invariant that the journal holds the parts seen; C87 and C88 instantiate it with the importers, using that
  numbering restarts with each day. C89 is false of the code (witness).
* C90: a matcher that lists all matches in order of preference, for the syntax used in the source, and a parser for
  that syntax; equality of the scanners with it by induction over the text.
* C91: C17 along the history of merges of one command, and uniqueness of the groups of sources.
* C92: induction over the history of updates of a cell.
* C93: a candidate tag names a fingerprint of one posting (C04 and C11, invariant of the journal), which is kept by all later
  merges; the edited posting then shares a fingerprint with that posting alone, and C03 and C24 give the outcome. The
  original shares its own fingerprint with the posting merged into, and C94 applies.
* C94: C03 and C24 give the outcome; each posting merged in is absorbed.
* C95: the two programs are functions on the files of the temporary directory; the glob sorts names. A sorted
  permutation of the page names is unique, and for up to 100 pages that is the numeric order; beyond, page-100.png
  comes before page-11.png: refuted there.
* C96: refuted, since exit statuses are dropped: two runs that differ only in them read the same document, and a
  witness. What does hold: a program that cannot be run or leaves no text.
* C97: case analysis of the option.
* C98: simulation between the two mergers, over histories.
* C99: C25 and C27 with C98 for the relation "differs in the source-file tag".
* C100: C67 for the imports (the importers only read), C87, C88 and C114 for the merging, C64 and C95 for the PDF statements recognised, C99 for the merge command.
* C101: exact description of the lines read (C37_lines_found), formatted lines, two counterexamples.
* C102: comments built by the importers are followed with their tags and value tags; reading back by C101's formatted lines and C37.
* C103: sorting lemmas; the relation `layout` holds of the written lines and determines them.
* C104: invariant of histories (`recorded`): the inputs merged into each posting, in order, and the place of each; then the built journal. `composed` describes the result of merging a list of postings and determines it.
* C105: with C104's description; what is merged together are the classes of the relation "shares a fingerprint" (for transactions: or is in one input transaction), which do not depend on the order. Witnesses show that acceptance, and soft matching, do depend on it.
* C106: C99 for both runs, C18 for the merges between, C31 and C61 for the text in the file; the input files are as they were. Headers come from the inputs (C98), so none has a source-file tag.
* C107: a relation between journals that have the same postings and transactions at other numbers is kept by every call (by induction on the calls) and by building; a journal and the one laid out from its sorted transactions are so related if every posting is recorded under the date of its transaction, which holds if the dates of inputs with a common fingerprint agree. Without that, a witness.
* C108: rules treat each transaction on its own (C75) and keep dates (C53), and so the ruled statements are made of ruled days, to which C86 applies; files by C58, C67 and C99.
* C109: the model with `i32` is compared step by step with the one with integers: equal if the sums made fit, and with checks equal or a panic; the bound on records by C64; witness one above the bound.
* C110: looking up the postings of a later piece after merging an earlier one finds what it finds before (fingerprints of a set are distinct, destinations are distinct, merging into a posting only makes soft matching stricter), so the state of the whole set is the state of the pieces; a closed form of the transactions after a merge is invariant under permutation.
* C111: postings handed back left nothing in the journal, so a resolved posting finds its choice by fingerprint and nothing else; the edited set is valid, so one merge accepts it; pieces and order by C110; the command by reading the output file back (C107) and the edited file grouped by source (C26).
* C112: the journal after the first source in closed form (postings by transaction, in order); every posting of the second source selects exactly the place of its counterpart or nothing; the closed form of the second merge (trns_closed) then gives the result; pieces and order by C110.
* C113: the fingerprints within each statement are distinct (C43, C76), those of the two formats are never equal (the PDF ones name the algorithm, the CSV ones are versioned or in another namespace); own posting and peer of each payment then form an instance of C112, and C110 lets the second statement come in its own order. C113_command and C113_command_reversed run the two import commands and the merge command on files.
* C114: the transactions made of the groups of lines do not depend on places on the page and, day by day, not on the days before (gives_unplaced, gives_split); the rest is C86 for the pieces so obtained.
* C115: a simulation of the two mergers (m_alike), kept by every step of merging (merge_same) and respected by building (build_same).
* C116: where flag tags can occur in the lines the formatter writes (format_lines_flags, pair_line_flags), so reread_tags; the rest is C115.
* C117: the day count of the model is shown to go up by one from each date to the next (next_day_number), so it is the one the inductive definition gives (valid_counted) and injective (days_inj).
* C118: adding fingerprints keeps soft matches (added_soft), and the pairing becomes one of two sources (hand_two_sources), so C112 applies; for the files C60 and C99 are put together (c118_command).
* C119: what is read from a written comment is given exactly (reread_step); from then on the non-blank values stay and the blank ones change between value and text (form_step), so the comment read next but one is the same (cycle, cycle_three). It settles iff it is then one that is read back as written (C31_exact).
* C120: renaming by induction on the depth of chains; replacing and moving by mutual induction on the relation of C54 (actions, rules, chains), in both directions; the command with the loading theorem of C59.
* C121: the history of C104 for the sets read by the command (C27, C99), with the uniqueness of fingerprints (C04).
* C122: a function computing the outcome of each chain from the posting, by unfolding the rules; uniqueness by extensionality of comments; Nationwide rows from C46, C48 and C102.
* C123: C87, C88, C114 for one order and C108 for the other; rules act on each transaction alone and keep dates, so they commute with sorting; determinism of rules (C54).
* C124: A run of the rules is a list of edits; predicates agree on both runs because no edit touches what they look at, so the second run makes the same edits, which are idempotent as a list.
* C125: The tags of each posting are known exactly (C40, C43, C51, C65); equality of tags is taken apart into namespace and digest (C41), equal digests into equal messages or a collision, and messages decode uniquely.
* C126: The importer again with bounded arithmetic, parametrised by the kind of build; a relation between results (equal, or a panic against anything else) is carried through all binds.
* C127: Reading depends only on the files read, writing does not depend on the world; a file that an attempt changed is created anew by the final run, so its content does not depend on the attempt. Induction over the attempts.
* C128: Types are data (`fp_type`), values depend on them (`fp_val`). Every encoding except that of raw bytes is prefix free; induction over the list of types.
* C129: Every command depends only on the files it reads, changes only files it may write, and creates its output anew. Induction over the rest of the script; two runs agree on files already created and on files no command writes.
* C130: from the closed form of merging (C110), each journal transaction after a merge is the one before with refined postings (whose amounts stay) and the new postings of the input transactions that go to it; sums over that; histories by induction.
* C131: the merged journal is the import of all days at once, sorted stably by date (C87, C88, C108, C114); each imported transaction puts the bank's entries, in order, on the own account and nothing else; sorting the transactions and sorting the rows commute, so running sums agree.
* C132: each account contributes numbered days (the splitting lemmas of C87, C88, C108, C114); fingerprints of different namespaces differ because the namespace can be read off the tag; days of all accounts are renumbered into one stream of parts that are separate in the sense of C86; the stable sort is monotone for sublists.
* C133: induction over the commands of the script (C129) with the files that hold results so far; each import is a statement (C100), each run of rules a treatment (C58, C108); then C132, C130 and C131 for the merge; the script is in order in the sense of C129, so it can be run again.
* C134: from C66 (a transaction is read from a group of lines) and the documented behaviour of the decimal parser on plain texts; values are rationals.
* C135: induction over the history; the invariant is that the journal is an edit of the payments seen. One merge: postings of known payments select their own posting by fingerprint, those of new payments select nothing, so that the journal grows by the new ones only.
* C136: induction over the history; the invariant is that the journal is an edit of each list of transactions merged, which holds after a merge by C104 (where each input posting went) and is kept by edits. Merging again: every posting selects its own posting by fingerprint.
* C137: the transactions of the statement are divided into those still there and those gone; since the postings of a transaction stay in one transaction, deleting whole transactions leaves each there entirely or not at all. Then as one statement of C135.
* C138: every posting is the fold of the input postings that share its fingerprints (C18); the fold is idempotent for a suffix of them.
* C139: the journal with the other transactions is the one without them, with indices shifted; every lookup gives the shifted verdict, so acceptance, application and what is handed back agree; sorting is stable.
* C140: induction over the inputs with C139; the order of dates and the transactions of each date determine the journal.
* C141: simulation: merging related transactions gives related results for every relation on postings that keeps tags, matching and the merging of two postings; renaming is such a relation.
* C142: simulation between the documents read, per paragraph; every comparison of coordinates is between numbers moved in the same way.
* C143: the pending actions of a part of the input are the same part of the pending actions, as the set of fingerprints seen only gets smaller; actions that hand back do not change the state.
* C144: the reference semantics of merging commutes with renaming tags: lookups, verdicts, accepted sets and the journal are the same; the model refines it for every hash order.
* C145: the reference semantics of merging commutes with an order-preserving change of dates: lookups, verdicts, accepted sets and the sorted journal are the same; the model refines it for every hash order.
* C146: a simulation (RelLaws.v): merging related inputs into related journals gives related results, as comparing amounts gives the same for both.
* C147: the table loaded is characterised by the chains of the files reached (C59), so it is the same; the command depends on the files through the table only.
* C148: a relation between contexts (same description, account and posting tags) is kept by every predicate, action, rule and chain, by induction on nested actions and the depth of jumps.
* C149: the comments written differ by one tag; parsing a written comment reads the tag lines first and then the same lines, and adding a tag commutes with parsing further lines.
* C150: the import by induction over the groups of rows; for merging, the places the postings were merged to are given to C94's lemma about contained transactions, which does not look at headers.
* C151: every posting of the set has exactly one fingerprint match, so the closed form of merging has no new parts; then the places of the postings are given to C94's lemma.
* C152: the exchange of the ids is a renaming of tags that C144 applies to; it is shown to be one-to-one on the fingerprints that occur.
* C153: the second result takes the part of the bank in C118; each pair of postings differs by one tag only, so the merged posting is computed.
* C154: two worlds in which each file has the same content or parses alike are kept so by every command, which does the same in both; fmt leads from a world to such a one.

## Trusted base

* The kernel of Coq 8.16.1 and its virtual machine (`vm_compute` is used for examples and
  refutations).
* `Print Assumptions` under every property theorem prints "Closed under the global context": no
  theorem rests on an axiom. (Loading std++ brings the files of `Coq.ssr` into the environment,
  whose module type `Under_rel` declares fields that `coqchk -o` lists; no theorem uses them.)
* Libraries: the standard library and std++. No functors, module types or axioms of our own.
* The reading of the Rust source into Gallina. Every definition of a model file cites the lines it
  models; `Tests*.v` check the model on the data of the repository's unit tests.
* Functions of Rust's standard library and of the crates sha1 and base64 that the model defines itself:
  `PropsLib.v` proves what trimming, searching, splitting, sorting, UTF-8, base64 and the parts of SHA-1 are
  documented to do. The list of white space characters is trusted.
* The statements: `SpecBase.v`, `*Claims.v` and `Props*.v`.

### What is modelled, and how

* Strings are lists of Unicode code points; `char` functions (whitespace, digits) are modelled on
  code points. The regular expressions of the source are modelled by scanners, which are
  proved equal (C90) to a leftmost-first matcher run on the expressions as written. The class `\d` is a list of
  the digits of Unicode 16.
* Iteration over a `HashMap`/`HashSet` is an arbitrary permutation, the same function of the
  contents at every call within one statement; two calls can be given different functions.
  For merging, `FreeOrderModel.v` drops this: every single iteration has an order of its own, and
  `C17_every_iteration` and `C91_every_iteration` show that nothing else is observable that way.
* `usize` and `i64`/`Decimal` arithmetic: indices are unbounded naturals; decimals are mantissa and
  scale with the limits checked where the code can fail.
* Panics (`unwrap`, `expect`, indexing) are an outcome `Panic`. Arithmetic that may overflow panics in
  the models as in debug builds; for the amounts and row numbers of Nationwide CSV statements (`NwI64Model.v`, C126)
  and the coordinates of PDF statements (`PdfI32Model.v`, C109) release builds, which wrap around, are modelled as well.
* The command model: a path names one file (no links), a file holds text, a crash strikes between any two
  characters written, faults (read, create, write after n characters, mkdir) are fixed per path during one run.
  Buffering inside the OS, permissions and concurrent writers are not modelled.

* Functions of one line that only build, wrap or return a field have no definition of their own; they are part of the
  definition that calls them: constructors and accessors of merge/posting.rs, merge/transaction.rs, merge/merger.rs and
  comment.rs (`new`, `get`, `get_mut`, `into_inner`, `builder`, `build`, `from_opt_string`, `trim_string`, ...), the
  comparison and hashing of indices in merge/posting.rs:24-31 and merge/merger.rs:424-431 (an index compares by its
  number, as positions do), trait methods that forward (importers/cmd.rs:27-38, rules/cmd.rs:28-33,
  rules/processor.rs, the `date` methods of nationwide_csv.rs), and the serde adaptors that call the modelled text readers (`deserialize`,
  `expecting`, `visit_str`).
* Code used by the tests only (testutil.rs, importers/testutil.rs), code that only words error messages
  (`clone_into_posting`), and code that nothing calls (`debug_write_to` of tesseract.rs) are left out.

### What is not modelled

* Parsing and printing of ledger text (crate ledger-parser), of CSV text into fields (csv), of RON text (ron)
  and of dates with chrono's formats: parameters of the model, universally quantified, with explicit
  hypotheses where a theorem needs one.
* Regular expressions given by the user in rules (crate regex) and `to_lowercase`: arbitrary functions. Paths of rule files:
  opening, `canonicalize`, `parent` and `join` are arbitrary functions; theorems assume that all names of a file
  open the same file, and for termination that there are finitely many files.
* PDF statements: chrono's reading of single items (year, day, month name, "Effective Date ...") and
  `Decimal::from_str` are arbitrary functions; coordinates are unbounded integers in `PdfModel.v` and `i32` with and without overflow checks in `PdfI32Model.v` (C109);
  the programs that render and recognise are arbitrary functions on the files of the temporary directory
  (ImporterModel.v), reading TSV text into records is an arbitrary function.
* The clock, UUID generation (an arbitrary sequence), logging,
  argument parsing (clap).
