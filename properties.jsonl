{"id": "C01", "title": "A failed merge leaves the merger unchanged", "statement": "If Merger::merge returns an error, the merger is exactly as it was before the call: a later build() gives the same journal and every later merge() behaves the same.", "quantifier": "every sequence of earlier merge calls (successful or failed) and every input transaction set", "why_tests_cant": "The apply phase mutates the indexes one posting at a time and can itself fail part way; a test tries a handful of failing inputs, not every failing input after every history.", "anchors": ["src/merge/merger.rs:Merger::merge", "src/merge/merger.rs:apply_pending", "src/merge/posting.rs:register_fingerprints"]}
{"id": "C02", "title": "Merging and building never hit an internal panic", "statement": "No call of merge or build after any sequence of merges reaches one of the `expect` panics (invalid posting index, invalid transaction index, posting without fingerprint).", "quantifier": "every sequence of merge calls on arbitrary inputs, followed by merge or build", "why_tests_cant": "The panics depend on index bookkeeping across an unbounded history.", "anchors": ["src/merge/posting.rs:IndexedPostings::get", "src/merge/posting.rs:ConsumePostings::take", "src/merge/posting.rs:primary_fingerprint", "src/merge/transaction.rs:IndexedTransactions::into_iter"]}
{"id": "C03", "title": "Existing posting lookup follows the documented order", "statement": "For each source posting: if existing postings share a fingerprint tag with it, exactly one such posting is the destination and more than one is an error; otherwise the existing postings recorded under the same date with equal amount, compatible balance and compatible account are considered: none means a new posting, exactly one is the destination, several mean ambiguity.", "quantifier": "every reachable merger and every source posting", "why_tests_cant": "The code answers from incremental hash indexes; the README speaks about all existing postings. Agreement must hold in every reachable state.", "anchors": ["src/merge/posting.rs:find_matching_postings", "src/merge/merger.rs:determine_posting_action", "README.md:Existing posting lookup"]}
{"id": "C04", "title": "Fingerprints identify postings uniquely", "statement": "In the journal produced by build no two postings carry the same fingerprint tag.", "quantifier": "every sequence of merge calls", "why_tests_cant": "Needs an invariant over all histories.", "anchors": ["src/merge/posting.rs:register_fingerprints", "src/merge/merger.rs:to_transaction_merge_action"]}
{"id": "C05", "title": "No input transaction is lost or duplicated", "statement": "After a successful merge every input transaction is either returned unmerged with all of its postings in order, or all of its postings are in one single journal transaction, each with all of its tags (bar unknown-account); the number of postings in the journal grows by exactly the number of input postings that matched nothing.", "quantifier": "every reachable merger, every input set", "why_tests_cant": "Accounting must hold for all inputs and histories.", "anchors": ["src/merge/merger.rs:make_pending", "src/merge/merger.rs:apply_pending"]}
{"id": "C06", "title": "Re-merging an already merged set changes nothing", "statement": "If a set was merged successfully and nothing was left unmerged, merging the same set again succeeds, leaves nothing unmerged and leaves the merger exactly as it was.", "quantifier": "every reachable merger, every input set", "why_tests_cant": "Idempotence depends on the interaction of all field merge rules with every index.", "anchors": ["src/merge/merger.rs:Merger::merge", "src/merge/posting.rs:merge"]}
{"id": "C07", "title": "Merging into an empty merger yields the input stably sorted by date", "statement": "Merging a valid set into a new merger and building gives exactly the input transactions that have postings, unchanged, stably sorted by date.", "quantifier": "every input set without duplicate fingerprints, with a fingerprint on each posting and no candidate tags", "why_tests_cant": "Unbounded inputs, any date multiset.", "anchors": ["src/merge/merger.rs:Merger::build", "src/merge/transaction.rs:IndexedTransactions::into_iter"]}
{"id": "C08", "title": "The journal is built in date order, stable by insertion", "statement": "build() lists transactions in nondecreasing date order; transactions with equal dates keep the order in which they were first merged, so earlier output is a subsequence of later output.", "quantifier": "every sequence of merge calls", "why_tests_cant": "Order must hold for all histories and any hash map iteration order.", "anchors": ["src/merge/transaction.rs:IndexedTransactions::into_iter", "src/merge/merger.rs:build"]}
{"id": "C09", "title": "The output journal re-merges to itself", "statement": "Feeding the built journal as a single set to a new merger succeeds, leaves nothing unmerged and builds the identical journal.", "quantifier": "every sequence of merge calls", "why_tests_cant": "Requires that every reachable journal meets the merger's own input conditions.", "anchors": ["src/merge/merger.rs:Merger::merge", "src/merge/merger.rs:build"]}
{"id": "C10", "title": "Existing journal data is only refined, never changed or dropped", "statement": "After a merge every transaction of the earlier journal is still present, in the same relative order, with identical header (date, description, comment...), its earlier postings first and in order; each earlier posting keeps amount and reality; its account changes only if it was tagged unknown-account; a present balance is kept; status only moves none->any or pending->cleared; no tag except unknown-account disappears; comment lines stay a prefix; no value-tag key disappears.", "quantifier": "every reachable merger, every input set", "why_tests_cant": "Must hold for every field and every input.", "anchors": ["src/merge/posting.rs:merge", "src/merge/merger.rs:apply_pending", "src/comment.rs:merge_from"]}
{"id": "C11", "title": "Ambiguous soft matches are handed to a human", "statement": "If some posting of an input transaction shares no fingerprint with the journal but soft-matches two or more existing postings, the whole transaction goes to the unmerged result and changes nothing in the journal; each such posting gets exactly one tag candidate-F per matching existing posting, F being a fingerprint of that posting, and the other postings are returned unchanged.", "quantifier": "every reachable merger, every input set, every hash iteration order", "why_tests_cant": "Set of matches is unbounded; fingerprint choice depends on hash order.", "anchors": ["src/merge/merger.rs:determine_posting_action", "src/merge/merger.rs:MergeActionsAccumulator"]}
{"id": "C12", "title": "Duplicate fingerprints inside one input set are rejected", "statement": "merge fails if two postings of the same input set share a fingerprint.", "quantifier": "every merger and input set", "why_tests_cant": "Any pair at any distance.", "anchors": ["src/merge/merger.rs:to_transaction_merge_action"]}
{"id": "C13", "title": "Only fingerprinted, candidate-free postings are accepted", "statement": "merge fails if any posting of the input set has no fingerprint tag or has a tag beginning with candidate-.", "quantifier": "every merger and input set", "why_tests_cant": "Any position in an unbounded input.", "anchors": ["src/merge/posting.rs:Input::from_posting_internal"]}
{"id": "C14", "title": "Two input postings never merge into one existing posting", "statement": "merge fails if two postings of one input set (in transactions that would be merged) select the same existing posting.", "quantifier": "every reachable merger and input set", "why_tests_cant": "Any pair at any distance.", "anchors": ["src/merge/merger.rs:check_pending"]}
{"id": "C15", "title": "An input transaction is never split over journal transactions", "statement": "merge fails if the postings of one unambiguous input transaction select existing postings of two different journal transactions.", "quantifier": "every reachable merger and input set", "why_tests_cant": "Any combination of matches.", "anchors": ["src/merge/merger.rs:find_existing_dest_trn"]}
{"id": "C16", "title": "Postings of one set never match each other", "statement": "What merge does with an input transaction (fields of its match result) depends only on the journal before the call, not on the other transactions of the set: identical look-alike transactions with distinct fingerprints in one set all become separate transactions.", "quantifier": "every reachable merger and input set", "why_tests_cant": "Any number of look-alikes.", "anchors": ["src/merge/merger.rs:make_pending"]}
{"id": "C17", "title": "Results do not depend on hash iteration order", "statement": "merge and build give the same journal, the same error/success verdict and the same unmerged transactions for any order of every single iteration over the hash sets and maps, except which fingerprint of a candidate posting is used in candidate tags.", "quantifier": "all iteration orders, all histories", "why_tests_cant": "Rust randomises hash order per process; a test sees one order per run.", "anchors": ["src/merge/posting.rs:fingerprints_from_comment", "src/merge/transaction.rs:into_iter", "src/merge/sources.rs"]}
{"id": "C18", "title": "Re-merging the result together with all its inputs reproduces it", "statement": "If sets s1..sn merge with nothing unmerged to journal J, then a new merger fed J, s1, ..., sn in that order leaves nothing unmerged and builds J again.", "quantifier": "every finite sequence of input sets", "why_tests_cant": "run_examples.sh checks this for one example only.", "anchors": ["run_examples.sh", "src/merge/merger.rs:Merger::merge", "src/merge/posting.rs:merge"]}
{"id": "C19", "title": "Soft matching compares the date of the parent transaction", "statement": "README: a soft match requires the same date on the parent transaction, i.e. the date under which an existing posting is found is the date of the journal transaction that contains it.", "quantifier": "every reachable merger", "why_tests_cant": "Only fails after a fingerprint match across dates followed by a soft match.", "anchors": ["src/merge/posting.rs:IndexedPostings::add", "README.md:Existing posting lookup"]}
{"id": "C20", "title": "Transactions without postings never enter the journal", "statement": "An input transaction with no postings is always returned unmerged and unchanged; no built journal contains a transaction without postings.", "quantifier": "every merger, input set and history", "why_tests_cant": "All histories.", "anchors": ["src/merge/merger.rs:to_transaction_merge_action"]}
{"id": "C21", "title": "Posting field merge rules", "statement": "Merging a source posting into an existing one: status, balance, account, unknown-account tag, other tags, value tags and lines follow the documented rules; amount and reality are kept; merging the same source twice equals merging it once.", "quantifier": "all pairs of postings", "why_tests_cant": "All combinations of optional fields, tags, lines.", "anchors": ["src/merge/posting.rs:merge", "src/comment.rs:merge_from"]}
{"id": "C22", "title": "Soft match is symmetric and numeric", "statement": "Whether two postings soft match does not depend on which one is the source; a posting matches itself; amounts are compared by numeric value, commodity and prices.", "quantifier": "all pairs of postings", "why_tests_cant": "All amounts/scales.", "anchors": ["src/merge/posting.rs:matches"]}
{"id": "C23", "title": "A merge changes the balance of a journal transaction only by the new postings", "statement": "For each journal transaction and commodity, the sum of its posting amounts after a merge is the sum before plus the sum over input postings newly added to it; so if a set adds nothing to a balanced transaction it stays balanced.", "quantifier": "every reachable merger, every input set", "why_tests_cant": "Arithmetic over unbounded lists.", "anchors": ["src/merge/merger.rs:apply_post_actions_to_trn", "README.md:Matching algorithm"]}
{"id": "C24", "title": "merge succeeds unless one of the documented input errors occurs", "statement": "merge returns success exactly when every posting has a fingerprint and no candidate tag, no fingerprint repeats in the set, no posting fingerprint-matches several existing postings, no unambiguous transaction selects several journal transactions, and no existing posting is selected twice.", "quantifier": "every reachable merger, every input set", "why_tests_cant": "A complete characterisation over all inputs; in particular the internal merge error is unreachable.", "anchors": ["src/merge/merger.rs:Merger::merge", "src/merge/posting.rs:register_fingerprints"]}
{"id": "C25", "title": "The merge command writes nothing unless the whole merge succeeded", "statement": "If any input cannot be read or parsed, or any set fails to merge, or transactions are unmerged and no --unmerged file is given, the command fails without touching any file.", "quantifier": "all file systems, input lists, read faults", "why_tests_cant": "Fault at any input.", "anchors": ["src/merge/cmd.rs:Command::run"]}
{"id": "C26", "title": "Input transactions are grouped by source", "statement": "Reading a journal for merging yields each transaction exactly once, annotated with its source (existing source-file tag or else the file name), grouped by source, groups ordered by source, file order kept inside a group.", "quantifier": "all journals, all hash orders", "why_tests_cant": "Unbounded.", "anchors": ["src/merge/sources.rs:read_ledger_file"]}
{"id": "C27", "title": "Source tags are stripped from the journal and kept on unmerged transactions", "statement": "No transaction written to the output carries a source-file tag and nothing else about it changes; every unmerged transaction carries one.", "quantifier": "all inputs", "why_tests_cant": "All inputs.", "anchors": ["src/merge/sources.rs:strip_sources", "src/merge/cmd.rs"]}
{"id": "C28", "title": "Crash points of the merge command", "statement": "At every crash point of a run, every file other than the --unmerged and --output files is unchanged, and the output file is not touched before the unmerged file is completely written.", "quantifier": "all runs and all crash points", "why_tests_cant": "Crash at any primitive file operation.", "anchors": ["src/merge/cmd.rs:Command::run", "src/filespec.rs:write_file"]}
{"id": "C29", "title": "In-place rewriting keeps the journal at every crash point", "statement": "At every crash point of fmt or generate-fingerprints each journal holds either its old or its new content.", "quantifier": "all runs and crash points", "why_tests_cant": "Crash between truncate and write.", "anchors": ["src/filespec.rs:write_file", "src/fmt.rs", "src/fpgen.rs"]}
{"id": "C30", "title": "The merge command is idempotent on its own output", "statement": "Running the merge command on its own output file alone writes the same journal again, given a ledger printer/parser that round-trips the journal and comments that can be written and read back (C31).", "quantifier": "all runs", "why_tests_cant": "All journals.", "anchors": ["src/merge/cmd.rs:Command::run"]}
{"id": "C31", "title": "Comment text round-trips", "statement": "For comments whose tags, keys, values and lines are representable, parsing the formatted text gives back the same comment. It does so for exactly the comments that read_back_as_written describes, and formatting leaves alone exactly their texts.", "quantifier": "all well-formed comments", "why_tests_cant": "All strings, sizes, tag lengths.", "anchors": ["src/comment.rs:from_opt_comment", "src/comment.rs:into_opt_comment"]}
{"id": "C32", "title": "Flag tags (so fingerprints) always survive writing and re-reading", "statement": "Every flag tag without colon, space or newline is still a flag tag after formatting and parsing, whatever lines and value tags the comment has.", "quantifier": "all comments", "why_tests_cant": "All neighbouring text.", "anchors": ["src/comment.rs:into_opt_comment", "src/comment.rs:from_opt_comment"]}
{"id": "C33", "title": "Comment formatting is canonical", "statement": "The formatted text does not depend on hash iteration order.", "quantifier": "all comments, all iteration orders", "why_tests_cant": "Rust randomises order.", "anchors": ["src/comment.rs:into_opt_comment"]}
{"id": "C34", "title": "Value tags survive writing and re-reading", "statement": "Every value tag (also with an empty value) is still a value tag with the same trimmed value after formatting and parsing.", "quantifier": "all comments", "why_tests_cant": "All strings.", "anchors": ["src/comment.rs:into_opt_comment", "src/comment.rs:VALUE_TAG_RX"]}
{"id": "C35", "title": "Formatting a parsed comment is a fixed point", "statement": "Parsing the formatted text of a parsed comment and formatting again gives the same text.", "quantifier": "all comment strings", "why_tests_cant": "All strings.", "anchors": ["src/comment.rs"]}
{"id": "C36", "title": "Comment merging", "statement": "merge_from: tags become the union, value tags are overridden by the other comment, its new lines are appended once in order, own lines stay; it is idempotent and associative on tags and value tags.", "quantifier": "all pairs/triples of comments", "why_tests_cant": "All contents.", "anchors": ["src/comment.rs:merge_from"]}
{"id": "C37", "title": "Parsed comments contain no hidden flag tags", "statement": "Every flag tag found is non-empty and free of colon and space; every line is non-empty, trimmed and contains no further flag group; every value-tag key is non-empty and free of colon and space.", "quantifier": "all comment strings", "why_tests_cant": "All strings.", "anchors": ["src/comment.rs:from_opt_comment"]}
{"id": "C38", "title": "Distinct bank records get distinct fingerprints", "statement": "If two Nationwide CSV records (5 or 6 columns) with their per-date sequence numbers get the same v1 fingerprint tag under valid namespaces, then namespace, all fields and sequence number agree, or the two byte strings hashed are an explicit SHA-1 collision.", "quantifier": "all records, counters and namespaces", "why_tests_cant": "Encoding ambiguity could hide anywhere in an infinite input space.", "anchors": ["src/fingerprint.rs", "src/importers/nationwide_csv.rs:fingerprint_v1"]}
{"id": "C39", "title": "Self and peer fingerprints of a record differ", "statement": "The self and peer fingerprint tags of a record differ unless SHA-1 collides on their (different) preimages.", "quantifier": "all records", "why_tests_cant": "All records.", "anchors": ["src/importers/util.rs:self_and_peer_fingerprints"]}
{"id": "C40", "title": "Fingerprint tags are well formed", "statement": "Every tag or legacy tag built for an accepted namespace starts with fp-, is recognised as a fingerprint, is not a candidate tag, and contains no colon, space, or newline, so it survives a comment round trip.", "quantifier": "all accepted namespaces and values", "why_tests_cant": "All strings.", "anchors": ["src/fingerprint.rs:Fingerprint::tag", "src/fingerprint.rs:VALID_FP_PART_RX"]}
{"id": "C41", "title": "Fingerprint tags decode uniquely", "statement": "Two tags are equal only if algorithm, version, namespace and hash value are equal; a legacy tag never equals a versioned tag.", "quantifier": "all algorithm names, versions, namespaces accepted by the builder", "why_tests_cant": "All strings.", "anchors": ["src/fingerprint.rs:Fingerprint::tag", "src/fingerprint.rs:legacy_tag"]}
{"id": "C42", "title": "Namespaces that would corrupt tags are refused", "statement": "A fingerprint builder is created exactly when algorithm name and namespace consist of letters, digits, _, + and /; generated namespaces are always accepted, and two accounts with one generated namespace are one account unless two explicit messages agree in the first 48 bits of their SHA-1; a fixed namespace or the account's name is used as it is, and an account missing from the lookup table is refused.", "quantifier": "all strings", "why_tests_cant": "All strings.", "anchors": ["src/fingerprint.rs:FingerprintBuilder::new", "src/importers/nationwide.rs:make_namespace"]}
{"id": "C43", "title": "Fingerprints are unique inside a Nationwide CSV statement", "statement": "If rows of one date are contiguous, all fingerprint tags of the imported postings are pairwise distinct (or SHA-1 collides).", "quantifier": "all statements", "why_tests_cant": "Unbounded row count.", "anchors": ["src/importers/nationwide_csv.rs:process_rows"]}
{"id": "C44", "title": "Re-importing an extended statement keeps fingerprints", "statement": "Importing rows xs followed by rows ys that start on another date than xs ends yields import(xs) followed by import(ys); in any case import(xs) is a prefix of import(xs++ys).", "quantifier": "all statements", "why_tests_cant": "Unbounded row count.", "anchors": ["src/importers/nationwide_csv.rs:process_rows"]}
{"id": "C45", "title": "Imported transactions balance", "statement": "In every transaction produced by the Nationwide CSV and PayPal importers the posting amounts sum to zero in each commodity.", "quantifier": "all records", "why_tests_cant": "All amounts, signs, scales.", "anchors": ["src/importers/util.rs:self_and_peer_account_amount"]}
{"id": "C46", "title": "Peer account follows the sign", "statement": "The peer posting is booked to expenses:unknown when the own amount is negative and to income:unknown when it is positive (one of the two for zero), and both postings are tagged unknown-account.", "quantifier": "all records", "why_tests_cant": "All amounts.", "anchors": ["src/importers/util.rs:self_and_peer_account_amount"]}
{"id": "C47", "title": "Money text is read exactly", "statement": "A pound amount accepted by the CSV importer denotes exactly the decimal number written in the text.", "quantifier": "all strings", "why_tests_cant": "All strings.", "anchors": ["src/importers/nationwide_csv.rs:GbpValueVisitor::visit_str"]}
{"id": "C48", "title": "Exactly one of paid-in and paid-out", "statement": "A CSV row is imported only if exactly one of paid in / paid out is present; the own amount is the paid-in amount or the negated paid-out amount; otherwise the whole import fails.", "quantifier": "all rows", "why_tests_cant": "All rows.", "anchors": ["src/importers/nationwide_csv.rs:form_postings"]}
{"id": "C49", "title": "Every posting produced by an importer carries a fingerprint", "statement": "Every posting produced by each importer carries at least one fingerprint tag (README: fingerprints are created by the import subcommands), so the result can be merged.", "quantifier": "all importers, options and inputs", "why_tests_cant": "Option-dependent; tests only run with legacy fingerprints enabled.", "anchors": ["src/importers/paypal_csv.rs:form_postings", "src/importers/nationwide_csv.rs:form_postings", "src/importers/nationwide_pdf.rs:TransactionBuilder::build"]}
{"id": "C50", "title": "PayPal rows are grouped without loss", "statement": "Consecutive rows with the same instant form one transaction; each row yields exactly its self and peer posting in row order; the description is the first present name; import fails if a group has no name.", "quantifier": "all row sequences", "why_tests_cant": "Unbounded.", "anchors": ["src/importers/paypal_csv.rs:read_transactions"]}
{"id": "C51", "title": "PayPal fingerprints are unique inside one transaction group and stable under status changes", "statement": "Fingerprints of different rows of a group differ (or SHA-1 collides), and do not depend on the status or receipt id of a row.", "quantifier": "all row sequences", "why_tests_cant": "Unbounded.", "anchors": ["src/importers/paypal_csv.rs:form_transaction"]}
{"id": "C52", "title": "A Nationwide CSV import can be merged", "statement": "The imported transactions of a statement with contiguous dates, accepted by the importer, are accepted by merge on a new merger with nothing unmerged and build returns all of them (unless SHA-1 collides).", "quantifier": "all statements", "why_tests_cant": "End to end over unbounded input.", "anchors": ["src/importers/nationwide_csv.rs", "src/merge/merger.rs"]}
{"id": "C53", "title": "Rules only touch account, tags and description", "statement": "apply-rules keeps the number and order of transactions and postings, dates, codes, amounts, balances, statuses, reality and comment lines; only posting accounts, flag and value tags and the transaction description can change.", "quantifier": "all rule tables and journals", "why_tests_cant": "All programs in the rule language.", "anchors": ["src/rules/table/mod.rs:Action::apply"]}
{"id": "C54", "title": "Return ends only the current chain", "statement": "A matching rule with result Return skips the remaining rules of its own chain only; after a jump returns, the calling chain continues after the jumping rule according to that rule's own result.", "quantifier": "all tables", "why_tests_cant": "All programs.", "anchors": ["src/rules/table/mod.rs:Chain::apply"]}
{"id": "C55", "title": "A validated table never jumps to a missing chain", "statement": "Applying a table accepted by validation never fails with a missing chain.", "quantifier": "all validated tables and journals", "why_tests_cant": "All programs.", "anchors": ["src/rules/table/mod.rs:Action::validate"]}
{"id": "C56", "title": "Applying a validated table terminates", "statement": "Applying a table accepted by validation always terminates.", "quantifier": "all validated tables and journals", "why_tests_cant": "Termination over all programs.", "anchors": ["src/rules/table/mod.rs:Chain::apply", "src/rules/table/mod.rs:JumpChain"]}
{"id": "C57", "title": "Predicates are boolean combinations", "statement": "All/Any/Not/True behave as conjunction, disjunction, negation and truth (De Morgan laws, empty All true, empty Any false), and do not depend on hash order.", "quantifier": "all predicates and contexts", "why_tests_cant": "All nestings.", "anchors": ["src/rules/table/predicate.rs:is_match"]}
{"id": "C58", "title": "A rule error aborts the command without output", "statement": "If any posting triggers an Error action, apply-rules fails and writes nothing.", "quantifier": "all tables and journals", "why_tests_cant": "Any position.", "anchors": ["src/rules/cmd.rs:Command::run", "src/rules/table/mod.rs"]}
{"id": "C59", "title": "Rule includes load each file once and terminate", "statement": "Loading a rules file terminates on every file system, also with cyclic includes; every reachable file contributes its chains once; two definitions of one chain name are an error, so chain names resolve uniquely.", "quantifier": "all include graphs", "why_tests_cant": "Unbounded graphs.", "anchors": ["src/rules/table/source.rs:load_into"]}
{"id": "C60", "title": "generate-fingerprints", "statement": "After generate-fingerprints every posting has a fingerprint; postings that had one are unchanged; others only gain one tag; a second run changes nothing; fingerprints stay pairwise distinct if they were and the generated ids are fresh.", "quantifier": "all journals", "why_tests_cant": "All journals.", "anchors": ["src/fpgen.rs:update_transactions"]}
{"id": "C61", "title": "Ledger conversion", "statement": "Converting a journal to transactions and back keeps all transactions in order separated by single empty lines, drops only empty lines, and fails on any other item type. Transactions come back from a journal as they were put in exactly if their comments do.", "quantifier": "all ledgers", "why_tests_cant": "All ledgers.", "anchors": ["src/internal.rs:from_ledger", "src/ledgerutil.rs:ledger_from_transactions"]}
{"id": "C62", "title": "UTC offsets are parsed exactly", "statement": "A timezone offset is accepted exactly if it is UTC followed by sign, two digit hours, and optionally colon and two digit minutes at most 59, with absolute value under 24 hours; the result is the signed number of seconds.", "quantifier": "all strings", "why_tests_cant": "All strings.", "anchors": ["src/tzabbr.rs:parse_utc_offset"]}
{"id": "C63", "title": "Timezone database", "statement": "Loading fails on a duplicate abbreviation; otherwise lookup returns exactly the offset of the row with that abbreviation.", "quantifier": "all row lists", "why_tests_cant": "Unbounded.", "anchors": ["src/tzabbr.rs:TzAbbrDB"]}
{"id": "C64", "title": "OCR records build a consistent tree", "statement": "Feeding TSV records either fails or yields a document where pages, blocks, paragraphs, lines and words are numbered 1,2,3,... inside their parent, and no accepted record is lost.", "quantifier": "all record sequences", "why_tests_cant": "Unbounded.", "anchors": ["src/importers/tesseract.rs:feed_record"]}
{"id": "C65", "title": "PDF statement fingerprints are unique", "statement": "Two transactions of one PDF statement with the same date get different sequence numbers, so identical-looking transactions still get different fingerprints.", "quantifier": "all statements", "why_tests_cant": "Depends on page breaks.", "anchors": ["src/importers/nationwide_pdf.rs:feed_line"]}
{"id": "C66", "title": "PDF lines are folded into transactions without loss", "statement": "Each payment/receipt line starts exactly one transaction, in order; continuation lines only extend the description, effective date or balance of the current transaction; a line with both payment and receipt fails.", "quantifier": "all line sequences", "why_tests_cant": "Unbounded.", "anchors": ["src/importers/nationwide_pdf.rs:TransactionsAccumulator"]}
{"id": "C67", "title": "Import output path", "statement": "With --sub-output-path every occurrence of %FP_NS% in the output path is replaced by the namespace; using it or --make-parent-dirs with stdout fails without writing; a failing import writes nothing.", "quantifier": "all paths and namespaces", "why_tests_cant": "All strings.", "anchors": ["src/importers/cmd.rs:Command::run"]}
{"id": "C68", "title": "Match sets are duplicate free", "statement": "Collecting values into a match set keeps exactly the distinct values in first-seen order; Zero/One/Many reflects their number. An iterator over it gives these values in order and then nothing any more, and its size hint is the number of values left, whatever calls are made of it.", "quantifier": "all sequences of values and of calls", "why_tests_cant": "Unbounded.", "anchors": ["src/merge/matchset.rs"]}
{"id": "C69", "title": "A PayPal import can be merged", "statement": "The transactions of a PayPal import with legacy fingerprints, whose groups have different times, are accepted by merge on a new merger with nothing unmerged and build returns all of them (unless SHA-1 collides).", "quantifier": "all row sequences", "why_tests_cant": "End to end over unbounded input.", "anchors": ["src/importers/paypal_csv.rs", "src/merge/merger.rs"]}
{"id": "C70", "title": "When money text is read exactly", "statement": "Of an accepted text the importer reads pounds * 100 + pence for some part pound sign, optional minus, digits, dot, digits; this is the number written exactly if there are two pence digits or the pence are zero; a minus before the pound sign is ignored; every such text that fits 64 bits is accepted.", "quantifier": "all strings", "why_tests_cant": "All strings.", "anchors": ["src/importers/nationwide_csv.rs:GbpValueVisitor::visit_str"]}
{"id": "C71", "title": "Fingerprints of PayPal postings", "statement": "Own postings of a PayPal import always carry a fingerprint; peer postings carry one if legacy fingerprints are requested.", "quantifier": "all options and row sequences", "why_tests_cant": "Option-dependent; unbounded.", "anchors": ["src/importers/paypal_csv.rs:form_postings"]}
{"id": "C72", "title": "What a crash leaves of journals rewritten in place", "statement": "At every crash point of fmt or generate-fingerprints over distinct journals, the journals before some place hold their complete new content, the one at that place its old content or a beginning of the new one, and all other files are unchanged; when the command succeeds all hold their new content, and it succeeds if all can be read, parsed and written.", "quantifier": "all journals, files, I/O failures and crash points", "why_tests_cant": "Quantifies over every crash point.", "anchors": ["src/fmt.rs", "src/fpgen.rs", "src/filespec.rs"]}
{"id": "C73", "title": "Jumps that exist are found", "statement": "If every chain that can be reached from start by jumps (at any depth of an action) is defined, applying the rules never fails with a missing chain and never panics, and fails only by an Error action of the table; this includes every validated table without jumps inside All.", "quantifier": "all rule tables and journals", "why_tests_cant": "All programs in the rule language.", "anchors": ["src/rules/table/mod.rs:Table::validate", "src/rules/table/mod.rs:Action::apply"]}
{"id": "C74", "title": "Rule tables without jump cycles terminate", "statement": "If no chain reachable from start can reach itself by jumps, applying the rules terminates on every journal, with chains nested at most as deep as there are chains.", "quantifier": "all rule tables and journals", "why_tests_cant": "Termination over all programs.", "anchors": ["src/rules/table/mod.rs:Chain::apply"]}
{"id": "C75", "title": "Rules treat each transaction on its own", "statement": "Applying rules to a journal succeeds exactly if it does on every transaction alone, with the same results; otherwise the first failing transaction decides the error.", "quantifier": "all rule tables and journals", "why_tests_cant": "Unbounded journals.", "anchors": ["src/rules/table/mod.rs:update_transactions"]}
{"id": "C76", "title": "PDF fingerprints are unique when a date's lines are together", "statement": "If all lines of one date are next to each other in the transactions of a PDF statement (a continuation line at the top of a page has no date and breaks this), later transactions of a date get larger sequence numbers, and no two postings share a fingerprint unless SHA-1 collides.", "quantifier": "all statements, namespaces and hash orders", "why_tests_cant": "Unbounded statements; hashes.", "anchors": ["src/importers/nationwide_pdf.rs:feed_line", "src/importers/nationwide_pdf.rs:TransactionBuilder::build"]}
{"id": "C77", "title": "PDF dates are real", "statement": "Every transaction imported from a PDF statement has a date that exists in the calendar, in the years 1980 to 2100.", "quantifier": "all recognised documents", "why_tests_cant": "All documents, including misrecognised ones.", "anchors": ["src/importers/nationwide_pdf.rs:update_date"]}
{"id": "C78", "title": "PDF transactions balance and are fingerprinted", "statement": "Every transaction of a PDF import has two postings with opposite amounts, own account assets:unknown and a peer account chosen by the sign, both with a fingerprint.", "quantifier": "all documents", "why_tests_cant": "Unbounded.", "anchors": ["src/importers/nationwide_pdf.rs:TransactionBuilder::build"]}
{"id": "C79", "title": "A PDF import can be merged", "statement": "Under the condition of C76 the transactions of a PDF import are accepted by merge on a new merger with nothing unmerged, and build returns all of them in date order (unless SHA-1 collides).", "quantifier": "all statements and hash orders", "why_tests_cant": "End to end over unbounded input.", "anchors": ["src/importers/nationwide_pdf.rs", "src/merge/merger.rs"]}
{"id": "C80", "title": "PDF import does not panic", "statement": "Importing a recognised document with fewer than 2^31-1 lines, and coordinates whose sums fit 32 bits, never panics.", "quantifier": "all documents", "why_tests_cant": "All documents, including misrecognised ones.", "anchors": ["src/importers/nationwide_pdf.rs"]}
{"id": "C81", "title": "Namespace from the account name of a PDF statement", "statement": "The account name of a statement contains characters no fingerprint may have, so an import with the account-name namespace fails as soon as there is a transaction; the generated namespace always works.", "quantifier": "all documents", "why_tests_cant": "All documents.", "anchors": ["src/importers/nationwide_pdf.rs:find_account_name", "src/importers/importer.rs", "src/fingerprint.rs"]}
{"id": "C82", "title": "Order of OCR records does not matter", "statement": "Two accepted sequences of the same records give the same document.", "quantifier": "all permutations of record sequences", "why_tests_cant": "All permutations.", "anchors": ["src/importers/tesseract.rs:feed_record"]}
{"id": "C83", "title": "Words belong to one column", "statement": "A word that is not cut by a column edge of the table header is read in at most one column; a word over the edge of payments and receipts is read in both, and the import fails.", "quantifier": "all headers and words", "why_tests_cant": "All positions.", "anchors": ["src/importers/nationwide_pdf.rs:read_lines"]}
{"id": "C84", "title": "Edits made between merges survive", "statement": "After any successful merges, let the user edit the journal: reorder, move to other dates, change descriptions, accounts, amounts and other tags, add transactions, as long as every posting keeps its fingerprints, postings of one transaction stay together and the journal is still one merge accepts. Merging the same sets again after the edited journal succeeds with nothing unmerged, and the result has exactly the edited transactions in date order, with the edited headers, and postings that are at most refined (unknown account resolved, balance or status or tags added).", "quantifier": "all histories of merges, edits, and hash orders", "why_tests_cant": "Histories of any length and arbitrary edits.", "anchors": ["src/merge/merger.rs:Merger::merge", "src/merge/merger.rs:Merger::build", "README.md"]}
{"id": "C85", "title": "Results of rules survive merging again", "statement": "If rules that do not touch fingerprint or candidate tags are applied to a merged journal, merging the same sets again into it succeeds, and keeps what the rules did: the same transactions in the same order, postings at most refined.", "quantifier": "all histories of merges, rule tables, and hash orders", "why_tests_cant": "Histories of any length; all rule tables.", "anchors": ["src/rules/table/mod.rs:Table::update_transactions", "src/merge/merger.rs:Merger::merge"]}
{"id": "C86", "title": "Overlapping sets merge to their union", "statement": "Merging any number of sets, each made of whole days of one stream of transactions, in any order, overlapping in any way, succeeds with nothing unmerged, and the result has each transaction of the days seen exactly once, unchanged, in date order. Instead of days the parts can be any that do not soft match each other on a date.", "quantifier": "all streams, sequences of sets and hash orders", "why_tests_cant": "Any number of sets in any order.", "anchors": ["src/merge/merger.rs:Merger::merge", "src/merge/merger.rs:Merger::build"]}
{"id": "C87", "title": "Overlapping Nationwide statements give each payment once", "statement": "Statements of one account downloaded at different times, each of whole days, overlapping in any way, can be imported and merged in any order; the result is what importing and merging one statement of all the days seen gives (unless SHA-1 collides on that statement).", "quantifier": "all accounts, divisions into statements, orders and hash orders", "why_tests_cant": "Any number of statements of any size.", "anchors": ["src/importers/nationwide_csv.rs", "src/merge/merger.rs"]}
{"id": "C88", "title": "Overlapping PayPal statements give each payment once", "statement": "The same for PayPal statements of whole days imported with legacy fingerprints, if rows with the same time are together.", "quantifier": "all accounts, divisions into statements, orders and hash orders", "why_tests_cant": "Any number of statements of any size.", "anchors": ["src/importers/paypal_csv.rs", "src/merge/merger.rs"]}
{"id": "C89", "title": "Statements may be cut anywhere", "statement": "Statements that together have all rows of an account give each payment once, wherever they are cut.", "quantifier": "all divisions into statements", "why_tests_cant": "All divisions.", "anchors": ["src/importers/nationwide_csv.rs", "src/fingerprint.rs", "src/merge/merger.rs"]}
{"id": "C90", "title": "Text is recognised as the regular expressions of the source say", "statement": "Comments, fingerprint names, UTC offsets, amounts of Nationwide statements and account numbers of PDF statements are split and accepted exactly as the leftmost-first matches of the regular expressions written in the source.", "quantifier": "all texts", "why_tests_cant": "All texts.", "anchors": ["src/comment.rs:Comment::from_opt_comment", "src/fingerprint.rs:FingerprintBuilder::new", "src/tzabbr.rs:parse_utc_offset", "src/importers/nationwide_csv.rs:GbpValueVisitor", "src/importers/nationwide_pdf.rs"]}
{"id": "C91", "title": "Running the merge command again gives the same files", "statement": "Two runs of the merge command on the same files both succeed or both fail. If they fail nothing is written; if they succeed the output is the same text, and what is handed back differs in candidate tags at most.", "quantifier": "all file contents, input lists and orders of every single iteration over a hash table", "why_tests_cant": "Hash orders differ from process to process.", "anchors": ["src/merge/cmd.rs:Command::run", "src/merge/sources.rs:read_ledger_file"]}
{"id": "C92", "title": "A cell whose update panicked is never used again", "statement": "A cell gives the value that its updates made, in order. Once the function of a map_value panics, the cell says that it is poisoned and every later use of the value panics.", "quantifier": "all values and histories of updates", "why_tests_cant": "All histories, including panicking updates.", "anchors": ["src/mutcell.rs:MutCell"]}
{"id": "C93", "title": "Resolving a handed-back posting as documented merges it where the user chose", "statement": "For a transaction handed back as ambiguous, let the user do what README.md says: for each such posting remove the prefix candidate- from one of its candidate tags and remove the others. The tag kept names one existing posting the input could be merged into, and when the edited transaction is merged (even after unrelated merges in between) it is merged with nothing handed back, each resolved posting into the posting chosen; afterwards the original input is recognised and merging it changes nothing.", "quantifier": "all journals, inputs handed back, choices, merges in between, and hash orders", "why_tests_cant": "All choices and histories in between.", "anchors": ["README.md", "src/merge/merger.rs:Merger::merge", "src/merge/posting.rs"]}
{"id": "C94", "title": "An input the journal already contains changes nothing", "statement": "If each posting of the input is contained in a different posting of the journal (tags, text, a status at least as advanced, balance and account), postings of one transaction in one transaction, merging it succeeds with nothing handed back and leaves the journal unchanged; for all inputs, not just those merged before.", "quantifier": "all journals, inputs and hash orders", "why_tests_cant": "All journals and inputs.", "anchors": ["src/merge/merger.rs:Merger::merge", "src/merge/posting.rs", "src/comment.rs:Comment::merge_from"]}
{"id": "C95", "title": "The pages of a PDF statement are read in order", "statement": "Whatever the order in which the temporary directory lists the images of the pages, the text recognised is that of the pages of the statement in their order.", "quantifier": "all statements of any number of pages, and directory orders", "why_tests_cant": "All numbers of pages; the images are found by a glob.", "anchors": ["src/importers/nationwide_pdf.rs:ocr_document"]}
{"id": "C96", "title": "A PDF import fails if a program it runs fails", "statement": "If rendering the pages or recognising the text fails, the import fails and nothing is written.", "quantifier": "all behaviours of the two programs", "why_tests_cant": "All failures of external programs.", "anchors": ["src/importers/nationwide_pdf.rs:ocr_document", "src/importers/cmd.rs"]}
{"id": "C97", "title": "The option for the fingerprint namespace means what its help says", "statement": "account-name, generated, fixed:NAME and lookup:FILE select the namespace by account name, by account hash, as NAME itself, or from the table read from FILE (- is stdin); every other value is refused. A file option is stdin exactly if it is -. Each importer reports the namespace asked for and puts it into all its fingerprints.", "quantifier": "all option values and file contents", "why_tests_cant": "All strings.", "anchors": ["src/importers/nationwide.rs:FpNamespace", "src/filespec.rs:FileSpec"]}
{"id": "C98", "title": "Only postings and dates influence merging", "statement": "Merging transactions whose descriptions, codes, statuses, effective dates or comments differ gives the same outcome: the same error, or journals with the same postings in the same places, each header staying with its transaction. Of the header, only the date is looked at.", "quantifier": "all histories of merges, all headers and hash orders", "why_tests_cant": "All headers and histories.", "anchors": ["src/merge/merger.rs:Merger::merge", "src/merge/transaction.rs"]}
{"id": "C99", "title": "The merge command does what merging its input journals does", "statement": "Given input files whose journals merge, the command succeeds, writes the merged journal, and writes what is handed back with a source-file tag, and no other file. Otherwise, or if there is no file for what is handed back, it fails and leaves all files as they were. Source-file tags in the inputs make no difference.", "quantifier": "all file contents, input lists, hash orders and crash points", "why_tests_cant": "All inputs and crash points.", "anchors": ["src/merge/cmd.rs:Command::run", "src/merge/sources.rs"]}
{"id": "C100", "title": "Importing overlapping statements to files and merging the files gives each payment once", "statement": "Let the import command write a journal for each of several downloaded statements (Nationwide CSV or PDF, or PayPal) that consist of whole days and may overlap. The merge command on these files succeeds, hands back nothing, and writes the journal of the one statement that has all the days.", "quantifier": "all statements, divisions into days, orders of import, hash orders", "why_tests_cant": "All divisions and overlaps, through the files.", "anchors": ["src/importers/cmd.rs", "src/merge/cmd.rs:Command::run", "src/importers/nationwide_csv.rs", "src/importers/paypal_csv.rs", "README.md"]}
{"id": "C101", "title": "Reformatting a comment loses nothing", "statement": "Reading a comment and writing it again keeps every tag, every piece of text and every value given in it.", "quantifier": "all comment texts and hash orders", "why_tests_cant": "All texts.", "anchors": ["src/comment.rs:Comment::from_opt_comment", "src/comment.rs:Comment::into_opt_comment"]}
{"id": "C102", "title": "Imported postings say what their row said", "statement": "Read back from its text, the comment of an imported posting has exactly the value tags that describe its row (account, bank, transaction type or transactions and location, name, receipt, and on the own posting the namespace with the number of the record in its day counting from 1), except blank ones, and besides fingerprints exactly the tags unknown-account and import-self or import-peer.", "quantifier": "all statements, options and hash orders", "why_tests_cant": "All rows and texts; the comment is written and read back.", "anchors": ["src/importers/nationwide_csv.rs", "src/importers/paypal_csv.rs", "src/importers/nationwide_pdf.rs", "src/tags.rs"]}
{"id": "C103", "title": "Comments are laid out as documented, and in one way", "statement": "A written comment has one line with all tags of at most 12 bytes in order, then a line for each longer tag in order, then the lines of text, the first of them behind the first line with tags, then a line for each value tag ordered by key. A comment with nothing in it is no comment.", "quantifier": "all comments and hash orders", "why_tests_cant": "All comments; sets and maps are iterated in hash order.", "anchors": ["src/comment.rs:Comment::into_opt_comment"]}
{"id": "C104", "title": "What the journal says is what the inputs merged into it say", "statement": "After any history of successful merges from an empty journal, every input posting whose transaction was not handed back is at one posting of the journal, two postings of one input never at the same one, those of one transaction in one transaction. Every journal posting says what the inputs merged into it say, in order: amount of the first, account of the first with a known account, cleared if one is, else pending if one is, balance of the first that has one, all flags and lines, the last value of each key; the description determines it. The header of a transaction is that of the first transaction merged into it.", "quantifier": "all histories of merges, with any hash orders and any handed-back transactions", "why_tests_cant": "All histories.", "anchors": ["src/merge/merger.rs:Merger::merge", "src/merge/merger.rs:Merger::build", "src/merge/posting.rs:Holder", "README.md"]}
{"id": "C105", "title": "The order of the inputs does not decide what is merged together", "statement": "If postings of different inputs that soft match also share a fingerprint, then any two orders of the same inputs in which all are accepted give journals with the same postings in the same transactions, each merged from the same inputs; status, flags, the set of lines, and everything the inputs agree on are the same. (Whether a merge is accepted does depend on the order, and without the condition so does what is merged together; both are shown by witnesses.)", "quantifier": "all lists of inputs, all pairs of orders, all hash orders", "why_tests_cant": "All orders of all inputs.", "anchors": ["src/merge/merger.rs:Merger::merge", "src/merge/posting.rs", "README.md"]}
{"id": "C106", "title": "Merging the written journal with all its inputs again gives the same file", "statement": "If the merge command merged journals into a file, with no file for unmerged transactions, then the merge command on that file and all the journals it came from succeeds, hands back nothing, and writes the same text again.", "quantifier": "all lists and contents of input files, all hash orders of both runs", "why_tests_cant": "All inputs, through the files (run_examples.sh tries it on one).", "anchors": ["src/merge/cmd.rs:Command::run", "src/merge/merger.rs:Merger::merge", "src/internal.rs", "run_examples.sh"]}
{"id": "C107", "title": "Merging in several runs gives what merging in one run gives", "statement": "Suppose input transactions with a common fingerprint have the same date. Then merging some journals to a file and later merging that file with further journals succeeds if merging all in one run does, hands back the same transactions and writes the same journal. This holds at any point of any history. (Without the condition it fails, as a witness shows: a posting is recorded under the date of the transaction that brought it, which the written journal does not say.)", "quantifier": "all histories of merges, all points to write and read back, all hash orders", "why_tests_cant": "All histories and all divisions into runs.", "anchors": ["src/merge/merger.rs:Merger::merge", "src/merge/merger.rs:Merger::build", "src/merge/cmd.rs:Command::run", "README.md"]}
{"id": "C108", "title": "Importing, applying rules and merging gives each payment once, as the rules want it", "statement": "Import several downloaded statements (Nationwide CSV or PDF, or PayPal) that consist of whole days and may overlap, apply the same rules to each, and merge. If the rules leave fingerprints alone, the merge succeeds, hands back nothing, and gives the journal that the rules make of the one statement with all the days, ordered by date. This holds for the functions and for the commands import, apply-rules and merge working on files.", "quantifier": "all statements, divisions into days, rules, orders of the runs, hash orders", "why_tests_cant": "All statements, overlaps and rules, through the files (run_examples.sh tries one).", "anchors": ["run_examples.sh", "src/importers/cmd.rs", "src/rules/cmd.rs:Command::run", "src/merge/cmd.rs:Command::run", "README.md"]}
{"id": "C109", "title": "Coordinates of recognised text do not overflow on pages of any realistic size", "statement": "If all coordinates of the recognised text are between 0 and 715827882, importing a PDF statement gives the same result in builds with and without overflow checks, namely that of exact arithmetic. The bound is the largest one. Whatever the coordinates, a build with checks gives the exact result or panics, and a build without never panics because of them (but may lose payments).", "quantifier": "all recognised documents, builds with and without overflow checks", "why_tests_cant": "All coordinates; tests use the coordinates of a few pages.", "anchors": ["src/importers/tesseract.rs:Word::horiz_bounds", "src/importers/nationwide_pdf.rs:lines_to_transactions"]}
{"id": "C110", "title": "How an input set is divided and ordered does not matter", "statement": "If a set of transactions is merged and nothing is handed back, and no posting of one of its transactions would be taken for a new posting of another one (soft match on the same date, where neither has its fingerprint in the journal), then merging the set in any number of pieces succeeds, hands nothing back, and reaches exactly the same state; pieces and transactions may also come in any other order, which changes nothing but the order of new transactions and new postings. Reordering the transactions of any accepted set changes nothing but order, also in what is handed back.", "quantifier": "all journals, all sets, all ways to divide and reorder them, all hash iteration orders", "why_tests_cant": "All ways to cut and reorder all sets; tests fix one.", "anchors": ["src/merge/merger.rs:merge", "src/merge/cmd.rs:run", "README.md:Existing posting lookup"]}
{"id": "C111", "title": "Everything that was handed back can be resolved in one go", "statement": "A run hands back a set of transactions with candidate tags. The user resolves all of them as README.md describes: in each posting with candidates the prefix candidate- is removed from one tag and the other candidate tags are removed. If the choices go together (the postings of one transaction go to one transaction, different postings to different postings, and no new posting looks like another one), then merging the edited transactions into the journal, in any order and in any number of pieces, succeeds and hands nothing back; each posting is merged into the one that the user chose, postings without match are added, and all other postings stay as they are. After that the original transactions can be merged again: they are not handed back any more and change nothing. The same holds for the merge command and its files: with the output file and the edited unmerged file as inputs, the command succeeds, needs no file for unmerged transactions, touches no file but its output, and writes that journal.", "quantifier": "all journals reached by merging, all sets handed back, all ways to resolve them, all orders and divisions, all hash iteration orders, all file contents", "why_tests_cant": "All histories, all ambiguities and all combinations of choices; a test makes one choice in one journal.", "anchors": ["README.md:Existing posting lookup", "src/merge/merger.rs:merge", "src/merge/cmd.rs:run"]}
{"id": "C112", "title": "The same payments from two sources are joined", "statement": "Two sources (two files for one account, or the files of the two accounts of a transfer) report some of the same payments under different fingerprints. If each payment has one date in both, its postings have the same amounts in some order, balances and known accounts do not contradict, and on its date no posting of the second source could be taken for another posting of the first, then merging the first source and then the second succeeds and hands nothing back, whatever the hash iteration orders. The journal holds each payment once: with the header of the first source, with the fingerprints of both sources on each posting, with the account of whichever source knows it; payments that only one source knows are in it unchanged, and all are sorted by date. If the payments that only the second source knows look like none of its others, the second source may be merged in any number of pieces and in any order, with the same result up to the order of transactions and postings.", "quantifier": "all pairs of sources, all numbers of shared and unshared payments, all orders of the postings, all hash iteration orders, all divisions into pieces", "why_tests_cant": "Soft matching looks at all postings of a date; a test fixes a few payments and one order of each.", "anchors": ["README.md:Existing posting lookup", "src/merge/merger.rs:merge", "src/merge/posting.rs:matches", "src/merge/posting.rs:merge"]}
{"id": "C113", "title": "A statement imported as CSV and as PDF is joined", "statement": "Take the CSV statement and the PDF statement of one Nationwide account, each imported without collision and with the rows of each day together (and, if legacy fingerprints are asked for, under different namespaces). Let the payments that both list have the same date and amount in both and no contradicting balance, let payments of one day (over both statements) differ in size, and let none listed first be zero. Then importing both and merging one into the journal of the other, in either order, succeeds and hands nothing back: the journal has each payment once, under the header of the statement merged first and with the fingerprints of both, the payments only one statement lists unchanged, sorted by date (up to the order of transactions of one day and of postings).", "quantifier": "all CSV files, all documents of recognised words, all numbers of payments in both or in one only, all orders of payments within each statement, all hash iteration orders", "why_tests_cant": "The two importers compute unrelated fingerprints from different texts, so the result depends on soft matching over all rows of both files; tests import one small file at a time.", "anchors": ["README.md:Existing posting lookup", "src/importers/nationwide_csv.rs:NationwideCsv", "src/importers/nationwide_pdf.rs:NationwidePdf", "src/merge/merger.rs:merge"]}
{"id": "C114", "title": "Overlapping PDF statements give each payment once", "statement": "Import any number of PDF statements of one account, each listing all transactions of some days (any days, in any order of days, on any number of pages with breaks between transactions), and merge the imports one after the other. Every merge succeeds with nothing handed back, and the journal is the import of one statement with all the days, sorted by date: each payment is there once, however often it is listed and wherever it stands on a page.", "quantifier": "all sets of statements, all choices of days, all page layouts, all orders of merging, all hash iteration orders", "why_tests_cant": "Depends on the numbering of equal payments being the same in every statement that lists the day; tests read single pages.", "anchors": ["README.md:Fingerprints", "src/importers/nationwide_pdf.rs:feed_line", "src/importers/nationwide_pdf.rs:TransactionBuilder::build", "src/merge/merger.rs:merge"]}
{"id": "C115", "title": "Of a posting merging looks at account, amount, balance and flag tags only", "statement": "Take two histories of merges whose inputs differ only in what is not account, amount, balance or flag tags of the postings and not date of the transactions: statuses, comment text, value tags and kinds (virtual or not) of postings, and everything else in the headers, may be anything. Then every merge succeeds, hands back or fails in the same way in both, and the journals have the same transactions in the same order with the same accounts, amounts, balances and flag tags.", "quantifier": "all pairs of such histories of merges (any number, failed ones included), all hash iteration orders", "why_tests_cant": "A noninterference property of pairs of runs; tests look at one run.", "anchors": ["src/merge/posting.rs:matches", "src/merge/posting.rs:merge", "src/merge/merger.rs:to_transaction_merge_action", "src/merge/merger.rs:check_pending", "src/merge/merger.rs:build"]}
{"id": "C116", "title": "Writing transactions to files and reading them again does not change how they merge", "statement": "A comment that was read, written and read again has exactly the flag tags it had, and in addition what looks like a flag tag in the value of a value tag whose key is blank (whitespace other than spaces). So, leaving blank keys aside, merging transactions or merging the files they were written to is the same in any history of merges: the same is handed back, the same fails in the same way, and the journals have the same transactions in the same order with the same accounts, amounts, balances and flag tags.", "quantifier": "all comment texts, all tags, all histories of merges with written and re-read inputs, all hash iteration orders", "why_tests_cant": "Needs the parser on every text the formatter can produce, and pairs of whole histories.", "anchors": ["src/comment.rs:from_opt_comment", "src/comment.rs:into_opt_comment", "src/internal.rs:TransactionPostings", "src/merge/merger.rs:merge"]}
{"id": "C117", "title": "PayPal rows are put at the instant their clock showed", "statement": "The instant of a row of a PayPal export is the one at which a clock of the row's time zone (ahead of UTC by the offset given for its abbreviation) shows the date and time of the row; days are counted in the Gregorian calendar. So the rows of one imported transaction are those of one instant, whatever zones they are written in, rows with different times in one zone are never put together, and the transaction has the date of that instant in the zone chosen for the output.", "quantifier": "all rows with dates of the calendar, all times of day, all offsets, all exports and zone tables", "why_tests_cant": "Calendar arithmetic over all dates and offsets; tests use one zone of offset zero.", "anchors": ["src/importers/paypal_csv.rs:from_csv_record", "src/importers/paypal_csv.rs:read_transactions", "src/tzabbr.rs"]}
{"id": "C118", "title": "A journal written by hand takes in what the bank reports", "statement": "Let a journal be written by hand, without fingerprints, and let a bank statement report some of its payments with the same dates and amounts, told apart by them. After generate-fingerprints on the journal, merging journal and statement hands nothing back: every payment is in the result once, with the header written by hand, each posting with the account written by hand where known, and with the bank's fingerprint beside the generated one; payments only one side knows are kept as they are. Merging the statement again changes nothing. The same holds of the two commands run on files, the output being any file, the journal included.", "quantifier": "all journals and statements with such a pairing, all distinct new ids, all hash orders, all files", "why_tests_cant": "The pairing may have any size and the ids any text; a test starts from one journal.", "anchors": ["src/fpgen.rs:update_transactions", "src/merge/merger.rs:Merger", "src/merge/cmd.rs:Cmd"]}
{"id": "C119", "title": "Writing and reading comments again and again", "statement": "However often a comment is read and written again, from the fifth writing on its text alternates between at most two texts, and from the third one on if it has no white space but spaces. So do the comments of all transactions and postings of a file.", "quantifier": "all comments, all numbers of rewritings, all hash orders, a different one for every writing", "why_tests_cant": "The number of rewritings is not bounded, and the texts that change under rewriting are the unusual ones; a test rewrites a few texts once or twice.", "anchors": ["src/comment.rs:Comment::from_opt_comment", "src/comment.rs:Comment::into_opt_comment"]}
{"id": "C120", "title": "Rules can be rearranged", "statement": "A table of rules has the same effect on every journal, or the same error, if its chains are given other names (but \"start\"), chains that cannot be run are added or removed, rules that all continue (or the last rules of a chain) are moved to a chain of their own, or the rules of a chain are replaced by rules that are alike: dropping rules that never hold, that do nothing and go on, or that follow one that always returns; splitting a list of actions that always applies; joining two rules that return after the same action; swapping two rules that return and never hold both. The command does exactly the same with the rearranged files.", "quantifier": "all tables, chains, predicates and actions, all journals, all regular expressions and text functions, all hash orders, all rule files that load the tables", "why_tests_cant": "A test runs two literal tables on one journal; that a rearrangement is safe is about every table around it and every journal.", "anchors": ["src/rules/table/mod.rs:Table::update_transactions", "src/rules/table/mod.rs:Table", "src/rules/cmd.rs:Cmd::run"]}
{"id": "C121", "title": "Everything the merge command reads goes somewhere", "statement": "If the merge command succeeds, every transaction of every input file has all its postings in the journal written, each in one place and those of one transaction together, or is in the unmerged file as a whole. Every posting of the journal says what the input postings at its place say. Every fingerprint of an input posting is in the journal exactly once or on a posting of the unmerged file. If there is anything for the unmerged file, it was asked for.", "quantifier": "all lists of input files and their contents, all outputs and file systems, all hash orders", "why_tests_cant": "What is lost or doubled depends on how the transactions of all the files match each other; a test checks a few files.", "anchors": ["src/merge/cmd.rs:Command::run", "src/merge/merger.rs:Merger::merge", "src/merge/merger.rs:Merger::build"]}
{"id": "C122", "title": "The example rules classify every posting", "statement": "The rules of examples/rules.ron load, and applying them to any journal ends without an error and leaves fingerprints alone. Every posting gets the account that its own account, the description of its transaction and its value tags \"bank\", \"account\" and \"trn_type\" decide, and loses the tag \"unknown-account\"; a posting for which there is none keeps its account and gets the tag. Of an imported Nationwide statement this is decided row by row by the account name, the description, the type and the side of the money. Applying them a second time keeps all accounts but marks every posting as one of an unknown account.", "quantifier": "all journals, all file systems with this rule file, all regular expression engines and hash orders, all Nationwide statements", "why_tests_cant": "A journal can combine accounts, descriptions and tags in any way, and a chain of rules can miss a case that no test has.", "anchors": ["examples/rules.ron", "src/rules/cmd.rs:Command::run", "src/rules/processor.rs:TransactionProcessor::update_transactions", "src/importers/nationwide_csv.rs"]}
{"id": "C123", "title": "Rules can be applied before or after merging", "statement": "For overlapping statements of whole days of one account, imported from Nationwide CSV, PayPal CSV or Nationwide PDF files, applying rules to each and merging the results gives the same journal as merging what was imported and applying the rules to that, for every table of rules that leaves fingerprints alone; the commands write the same text. For journals in general the order matters.", "quantifier": "all statements cut into days in any way, all rule tables that leave fingerprints and candidate tags alone, all hash orders, all file systems", "why_tests_cant": "Rules can change accounts, descriptions and tags, and merging combines tags; that both orders agree must hold for all rules and all ways statements overlap.", "anchors": ["src/rules/table/mod.rs:Table::update_transactions", "src/merge/merger.rs:Merger::merge", "src/merge/merger.rs:Merger::build", "src/rules/cmd.rs:Command::run", "src/merge/cmd.rs:Command::run"]}
{"id": "C124", "title": "Applying the same rules again changes nothing, for rules that do not look at what they change", "statement": "When no rule looks at an account, flag, key or description that some rule changes, and no replacement applies to what a replacement has made, applying the rules to their own result gives that result, and the command applied to the file it wrote writes the same text. The same holds for rules that only treat postings of one kind, when no posting changed is still of that kind. For rules in general it does not: two results can take turns for ever.", "quantifier": "all rule tables with these properties (any depth of jumps), all journals, all hash orders, all regular expression engines, all file systems", "why_tests_cant": "Whether repeating is harmless depends on how predicates and actions of all rules interact, for any table and any journal.", "anchors": ["src/rules/table/mod.rs:Table::update_transactions", "src/rules/table/mod.rs:Rule::apply", "src/rules/table/predicate.rs:Predicate::is_match", "src/rules/table/mod.rs:Action::apply", "src/rules/cmd.rs:Command::run"]}
{"id": "C125", "title": "Imported postings have a fingerprint in common exactly if they are the same entry", "statement": "Take any two imports of one kind, or one import twice. A posting of one has a fingerprint in common with a posting of the other exactly in the following case, unless two different texts that are hashed have the same SHA-1 digest: the namespaces are equal, and for Nationwide CSV the postings are for the same side of equal rows with the same number of rows of their date directly before them (if both imports write legacy fingerprints, the description of a row of six columns may differ); for PayPal for the same side of rows at the same place among the rows of their time that agree in all but status and receipt, where a peer posting needs legacy fingerprints in both imports; for Nationwide PDF, account, amount, date, description and number among the transactions of the date agree.", "quantifier": "all pairs of statements, options, namespaces, hash orders, date parsers and time zones", "why_tests_cant": "Whether a payment is recognised in the next download depends on every field and on the rows before it, for any two files.", "anchors": ["src/importers/nationwide_csv.rs:RecordSix::fingerprint_v1", "src/importers/nationwide_csv.rs:RecordSix::fingerprint_legacy", "src/importers/nationwide_csv.rs:RecordFive::fingerprint_v1", "src/importers/paypal_csv.rs:form_postings", "src/importers/nationwide_pdf.rs:TransactionBuilder::build", "src/fingerprint.rs:FingerprintBuilder"]}
{"id": "C126", "title": "Amounts in Nationwide CSV statements do not overflow unless they are astronomical", "statement": "Importing a Nationwide CSV statement does not panic if no amount of 2^63 pence or more is written in it and it has fewer than 2^31 lines, and builds with and without overflow checks then give the same result. A build without checks never panics and agrees with the other whenever that does not panic; amounts of more than 2^63 pence come out wrong in it without a message.", "quantifier": "all statements, options, date parsers and hash orders; builds with and without overflow checks", "why_tests_cant": "All texts and lengths; tests are run in debug builds only, users run release builds.", "anchors": ["src/importers/nationwide_csv.rs:GbpValueVisitor::visit_str", "src/importers/nationwide_csv.rs:process_rows", "src/importers/nationwide_csv.rs:form_postings"]}
{"id": "C127", "title": "Commands that were interrupted can be run again", "statement": "However often merge, apply-rules or import was tried before, whether an attempt ended well, failed because of the disk or was interrupted at any point, running the command again ends as it would have without the attempts and leaves the same files, provided that no file it reads is one it writes. If the output is also an input this is false: an interrupted merge can empty the journal and the next one ends well without it.", "quantifier": "all sequences of attempts with all faults, crash points and hash orders, all worlds, inputs, outputs and options", "why_tests_cant": "All crash points of all sequences of failing runs.", "anchors": ["src/merge/cmd.rs:Command::run", "src/rules/cmd.rs:Command::run", "src/importers/cmd.rs:Command::run", "src/filespec.rs:FileSpec::writer"]}
{"id": "C128", "title": "A fingerprint tells apart any two lists of values of the same types", "statement": "Whatever list of types is fed to a fingerprint builder (integers of every width, text, dates, times, amounts, nested options, and raw bytes at the end), two tags built from values of these types are equal exactly if algorithm, version, namespace and all values are equal, or the two byte strings hashed are an explicit SHA-1 collision. Integers are written big-endian in two's complement. Two raw byte slices, or different lists of types, are not told apart.", "quantifier": "all lists of types, all values of these types, all accepted names, versions and namespaces", "why_tests_cant": "Infinitely many lists of types and values; ambiguity of an encoding shows only for particular pairs.", "anchors": ["src/fingerprint.rs:Fingerprintable", "src/fingerprint.rs:FingerprintBuilder::with", "src/fingerprint.rs:Accumulator::with"]}
{"id": "C129", "title": "A script of imports, rules and merges can be run again from the start", "statement": "Take a script of import, apply-rules and merge commands in which every file that a command reads is written by an earlier command or by none. However often parts of the script were tried before, in any order, failing or interrupted at any point, running the whole script ends as it would have without that and leaves the same content in every file that it writes and in every file that none of its commands could write. Only a file of unmerged transactions left by an attempt can remain when the run has no unmerged transactions.", "quantifier": "all scripts of any length, all sequences of attempts at any of their commands with all faults, crash points and hash orders, all worlds", "why_tests_cant": "All crash points of all scripts and sequences of attempts.", "anchors": ["src/merge/cmd.rs:Command::run", "src/rules/cmd.rs:Command::run", "src/importers/cmd.rs:do_import", "src/filespec.rs:FileSpec::writer", "src/filespec.rs:write_file"]}
{"id": "C130", "title": "Journals that balance stay balanced", "statement": "In every commodity, merging adds to the amounts of a journal transaction exactly those of the input postings that go to it and have no counterpart in the journal, and the total of the journal grows by all such postings; transactions that are new are as they were in the input. So if every transaction in the journal balances, and every transaction merged into it balances and has either all or none of its postings in the journal already, every transaction balances afterwards, through any number of merges and in the file that the merge command writes. If an input transaction that balances has only some postings in the journal, the result is out of balance by the sum of those.", "quantifier": "all mergers, input sets, commodities, histories of merges, files and hash orders", "why_tests_cant": "Amounts and histories are unbounded.", "anchors": ["src/merge/merger.rs:Merger::merge", "src/merge/merger.rs:Merger::build", "src/merge/posting.rs:merge", "src/merge/cmd.rs:Command::run"]}
{"id": "C131", "title": "Balances that the bank states hold in the merged journal", "statement": "Import overlapping statements of one account, each with whole days, optionally apply rules, and merge. If on the statements every balance is the balance before the first payment plus the payments listed up to it, then in the merged journal every balance on a posting to that account is the same starting balance plus the amounts of the postings to the account up to and including it, so that Ledger accepts all balance assertions. Rules may move the account's side to another account, provided they move nothing else there. The order of the rows matters: the journal keeps it, and no starting balance satisfies the assertions if the bank lists the payments of one time in another order than that of its balances.", "quantifier": "all sets of overlapping Nationwide CSV, PayPal and Nationwide PDF statements, rules, starting balances and hash orders; by the library and by the commands", "why_tests_cant": "Statements and their overlaps are unbounded, and the order of postings in the result depends on all of them.", "anchors": ["src/importers/nationwide_csv.rs:form_postings", "src/importers/paypal_csv.rs:form_postings", "src/importers/nationwide_pdf.rs:TransactionBuilder::build", "src/merge/merger.rs:Merger::build", "src/rules/cmd.rs:Command::run"]}
{"id": "C132", "title": "Statements of several accounts merge into one journal", "statement": "Import any number of accounts (Nationwide CSV, PayPal, Nationwide PDF), each with its own fingerprint namespace and each from overlapping statements with whole days, optionally apply rules (which may differ per account), and merge all the files in any order. If no posting of one account soft matches one of another account on the same day, then nothing is left unmerged and the journal has every payment of every account exactly once; it is sorted by date, with the payments of each account in the order that this account's journal alone would have; and the balances stated by the bank of one account hold in it, if only that account's side is on the ledger account. Without that condition payments are mixed up silently: two unrelated payments of the same amount on the same day from two accounts become one transaction that does not balance.", "quantifier": "all numbers of accounts of the three kinds, statements, overlaps, orders of files, rules and hash orders; by the library and by the merge command", "why_tests_cant": "Accounts, statements, overlaps and orders of files are unbounded; any payment can meet any payment of another account.", "anchors": ["src/merge/merger.rs:Merger::merge", "src/merge/merger.rs:Merger::build", "src/merge/posting.rs:IndexedPostings::find_matching_postings", "src/merge/cmd.rs:Command::run", "src/importers/nationwide_csv.rs:form_postings", "src/importers/nationwide.rs:make_namespace"]}
{"id": "C133", "title": "A script for several accounts gives the journal of all of them, also after interruptions", "statement": "Take a script that, for each statement of any number of accounts (Nationwide CSV, PayPal, Nationwide PDF; own namespace and rules per account; overlapping statements with whole days, in any order), runs import and, where the account has rules, apply-rules (to another file or in place), and finally runs merge on all results. If the imports and rules end well and payments of different accounts on the same day do not look alike, the merge ends well; the target file then has every payment of every account exactly once, as the rules of its account want it, sorted by date; every transaction in it balances; the balances that the bank states hold; and no other file than those named as outputs is changed. If parts of the script were run before, in whatever order and with whatever faults, and stopped at any point, running it from the start gives the same journal.", "quantifier": "all numbers and kinds of accounts, statements, overlaps, orders, rules, file contents, hash orders and histories of interrupted runs", "why_tests_cant": "It is a property of a whole sequence of commands over unbounded statements, with crashes at any event of any of them.", "anchors": ["src/main.rs:main", "src/importers/cmd.rs:Command::run", "src/rules/cmd.rs:Command::run", "src/merge/cmd.rs:Command::run", "src/merge/merger.rs:Merger::merge"]}
{"id": "C134", "title": "Amounts in PDF statements are read as written", "statement": "If the receipt of a line of a PDF statement is written as digits, a dot and digits (at most 28 digits, with commas anywhere), the own posting of its transaction is that many pounds and the peer posting minus that; for a payment it is the other way round. The own posting has a balance exactly if one of the lines of the transaction has one, and it is the number written in the last of these lines. No statement is refused because of such texts.", "quantifier": "all documents, texts of amounts, positions of commas, namespaces and hash orders", "why_tests_cant": "It ranges over all texts and all divisions of a statement into lines, and says that the numbers are exact.", "anchors": ["src/importers/nationwide_pdf.rs:parse_amount", "src/importers/nationwide_pdf.rs:TransactionBuilder"]}
{"id": "C135", "title": "A journal can be kept month after month", "statement": "Let a journal be kept over time: it starts with any transactions of its own, statements are merged into it that may overlap earlier ones in any way, and in between it is edited by hand or by rules, as long as postings keep their fingerprints, postings of one transaction stay together, and the journal is still one merge accepts. Then at any time the next statement merges with nothing handed back, provided that no posting of the journal on the same date could be taken for a payment that is new. The journal keeps its transactions with the headers they have by then and their postings at most refined; added, unchanged, is exactly what no earlier statement had. At any time every payment of the statements so far is in the journal exactly once. The same holds of the merge command, also if it writes the journal in place.", "quantifier": "all streams of payments, all histories of statements and edits, all hash orders", "why_tests_cant": "It ranges over all interleavings of edits and merges of unbounded length.", "anchors": ["src/merge/merger.rs:Merger::merge", "src/merge/merger.rs:Merger::build", "src/merge/cmd.rs:Command::run"]}
{"id": "C136", "title": "What was merged stays recognised, whatever happened before and after", "statement": "Let a journal have any history: it starts with any transactions, statements of any kind are merged into it (they may overlap, report the same payments under other fingerprints or dates, match entries written by hand, or be handed back in part), and in between it is edited by hand or by rules, as long as postings keep their fingerprints, postings of one transaction stay together, and the journal is still one merge accepts. Then every transaction that was ever merged, and not handed back, is in the journal exactly once: in one transaction, with all the fingerprints of each of its postings on one posting and on no other. Transactions of old statements, all or some of them, in any order, can be merged again at any time: nothing is handed back, nothing is added, headers stay as they are by then, and postings are at most refined. Every successful run of the merge command with the journal first is such a merge.", "quantifier": "all journals, all statements, all histories of merges and edits, all hash orders", "why_tests_cant": "It ranges over all interleavings of edits and merges of unbounded length, with arbitrary statements.", "anchors": ["src/merge/merger.rs:Merger::merge", "src/merge/merger.rs:Merger::build", "src/merge/cmd.rs:Command::run"]}
{"id": "C137", "title": "Payments deleted from the journal come back with a statement that has them", "statement": "Let a journal have any history of merges and edits (as in C136), and delete some of its transactions. If then transactions of an old statement are merged again, nothing is handed back; those that are still in the journal change at most by refinement; those that were deleted are added as they are in the statement, provided that no posting left in the journal on the same date could be taken for one of theirs. Nothing else is added. The same holds of the merge command.", "quantifier": "all journals with any history, all choices of deleted transactions, all parts of old statements, all hash orders", "why_tests_cant": "It ranges over all histories and all sets of deleted transactions.", "anchors": ["src/merge/merger.rs:Merger::merge", "src/merge/merger.rs:Merger::build", "src/merge/cmd.rs:Command::run"]}
{"id": "C138", "title": "Merging the last inputs again changes nothing, so an in-place merge can be repeated", "statement": "If sets of transactions have been merged one after the other with nothing handed back, then merging any number of the last ones again, in their order, hands nothing back and leaves the journal as it is, both in the same merger and in one started from the written journal. So a merge command that overwrites its own journal input (merge J S1 .. Sn with J as output) can be run again with the same arguments: it succeeds and leaves J with the same text.", "quantifier": "all sequences of inputs and all their suffixes, all journals, worlds, hash orders of both runs", "why_tests_cant": "It ranges over all sequences of inputs; the interaction of tags, accounts, balances and statuses of several inputs decides it.", "anchors": ["src/merge/merger.rs:Merger::merge", "src/merge/merger.rs:Merger::build", "src/merge/posting.rs:merge_from", "src/merge/cmd.rs:Command::run"]}
{"id": "C139", "title": "A journal can be kept in parts: transactions that do not concern what is merged play no role", "statement": "Suppose some transactions of a journal have no fingerprint in common with the statements merged into it, and no posting on the same date as one of a statement that could be taken for it. Then merging the statements into the journal with and without these transactions accepts the same statements, hands back the same transactions, and gives journals that differ exactly by these transactions, unchanged and in the order of dates. So a journal may be kept in one file per year, and merging into the file of the current year does what merging into the whole would do. The same holds of the merge command.", "quantifier": "all journals, all ways to divide them, all sequences of statements, all hash orders", "why_tests_cant": "It ranges over all journals and statements, and says that an unlimited part of the input has no influence.", "anchors": ["src/merge/merger.rs:Merger::merge", "src/merge/merger.rs:Merger::build", "src/merge/posting.rs:IndexedPostings::find_matching_postings", "src/merge/cmd.rs:Command::run"]}
{"id": "C140", "title": "Inputs that do not concern each other can be given in any order", "statement": "If each of several inputs can be merged on its own, and no two of them have a fingerprint in common or postings of the same date that could be taken for each other, then they can be merged in any order; nothing is handed back, the journal has exactly their transactions, and the order of the inputs decides only the order of transactions of one date. If moreover no date has transactions of two inputs, the merge command writes the same text for its input files in any order.", "quantifier": "all numbers and contents of inputs, all orders, all hash orders", "why_tests_cant": "It ranges over all lists of inputs and all their permutations.", "anchors": ["src/merge/merger.rs:Merger::merge", "src/merge/merger.rs:Merger::build", "src/merge/cmd.rs:Command::run"]}
{"id": "C141", "title": "Accounts and currencies can be renamed throughout", "statement": "If accounts and currencies are given other names in the journal and all inputs, in amounts, prices and balances alike, and no two of the names that occur become the same, then every merge hands back the same transactions or fails in the same way, and the journal built is the same one with the new names; the merge command succeeds on both sets of files or on neither, and the files it writes are the same but for the names. In particular no account or currency name has a special meaning for merging.", "quantifier": "all histories of merges, also failed ones, all inputs, all renamings that keep the names apart, all hash orders", "why_tests_cant": "It ranges over all renamings, all inputs and all histories.", "anchors": ["src/merge/posting.rs:Input::matches", "src/merge/posting.rs:merge_from_input_posting", "src/merge/merger.rs:Merger::merge", "src/merge/merger.rs:Merger::build", "src/merge/cmd.rs:Command::run"]}
{"id": "C142", "title": "Where on the page and how large the text of a PDF statement is makes no difference", "statement": "If the recognised text of a PDF statement is the same but every paragraph is at another place on its page, and larger or smaller, by any factor and offsets of its own, then importing it gives the same transactions with the same fingerprints, or fails in the same way. So neither margins nor resolution matter.", "quantifier": "all recognised documents, all factors and offsets per paragraph, all fingerprint options, both build profiles as long as coordinates are below 715827883", "why_tests_cant": "It ranges over all documents and all ways to place them.", "anchors": ["src/importers/tesseract.rs:Document::from_tsv_reader", "src/importers/tesseract.rs:Bounds::overlaps", "src/importers/nationwide_pdf.rs:table::find_in_line", "src/importers/nationwide_pdf.rs:table::read_lines", "src/importers/nationwide_pdf.rs:lines_to_transactions"]}
{"id": "C143", "title": "What is handed back leaves no trace", "statement": "If some transactions of an input are handed back, then merging the input without them gives the same journal and hands back nothing, and merging only them hands them back in the same way and changes nothing. The same holds over any history of merges; the last inputs of a history, without what was handed back, can be merged again and change nothing; and the merge command on files without what was handed back writes the same output and no unmerged file.", "quantifier": "all reachable journals, all inputs, all histories of merges, all hash iteration orders, all files", "why_tests_cant": "It ranges over all journals and inputs, and over which transactions are handed back.", "anchors": ["src/merge/merger.rs:Merger::merge", "src/merge/merger.rs:Merger::make_pending", "src/merge/merger.rs:Merger::check_pending", "src/merge/merger.rs:Merger::apply_pending", "src/merge/cmd.rs"]}
{"id": "C144", "title": "Fingerprints are only compared, and can be renamed throughout, as can other flag tags", "statement": "If flag tags of postings are renamed in the journal and all inputs, fingerprints to fingerprints so that no two of those that occur become the same, candidate tags to candidate tags, and unknown-account is kept, then every merge hands back the same transactions (bar the candidate tags it adds) or fails for both, and the journal built is the same one with the new tags; the merge command succeeds on both sets of files or on neither, and writes the same but for the tags. In particular the namespace or algorithm of fingerprints has no meaning for merging, and no flag tag has one but unknown-account and those that begin with fp- or candidate-.", "quantifier": "all histories of merges, also failed ones, all inputs, all renamings that keep the kinds of tags and keep fingerprints apart, all pairs of hash iteration orders", "why_tests_cant": "It ranges over all renamings, all inputs and all histories.", "anchors": ["src/merge/merger.rs:Merger::merge", "src/merge/merger.rs:Merger::build", "src/merge/posting.rs:fingerprints_from_comment", "src/merge/posting.rs:matches", "src/merge/posting.rs:merge_from_input_posting", "src/merge/cmd.rs:Command::run"]}
{"id": "C145", "title": "Dates are only compared, and can be moved", "statement": "If the dates of all transactions in the journal and all inputs are changed so that those that occur stay in the same order, then every merge hands back the same transactions (bar the candidate tags it adds) or fails for both, and the journal built is the same one, in the same order, with the new dates; the merge command succeeds on both sets of files or on neither, and writes the same but for the dates. In particular how many days lie between two dates never matters, nor do months, leap years or the present day.", "quantifier": "all histories of merges, also failed ones, all inputs, all maps of dates that keep the order of those that occur, all pairs of hash iteration orders", "why_tests_cant": "It ranges over all such maps, all inputs and all histories.", "anchors": ["src/merge/merger.rs:Merger::merge", "src/merge/merger.rs:Merger::build", "src/merge/posting.rs:matches", "src/merge/cmd.rs:Command::run"]}
{"id": "C146", "title": "Amounts are only compared: how they are written makes no difference", "statement": "If amounts, also those in prices and balances, are replaced by others in the journal and all inputs, so that two that had the same value and currency still have and two that had not still have not, then every merge hands back the same transactions or fails in the same way, and the journal built is the same one with the new amounts; the merge command succeeds on both sets of files or on neither, and writes the same but for the amounts. In particular merging does not depend on how many decimal places any amount is written with, on its sign, or on its size.", "quantifier": "all histories of merges, also failed ones, all inputs, all replacements of amounts (different ones at different places allowed) that keep sameness, all hash iteration orders", "why_tests_cant": "It ranges over all replacements, all inputs and all histories.", "anchors": ["src/merge/merger.rs:Merger::merge", "src/merge/merger.rs:Merger::build", "src/merge/posting.rs:matches", "src/merge/posting.rs:merge_from_input_posting", "src/merge/cmd.rs:Command::run"]}
{"id": "C147", "title": "How rules are divided among files makes no difference", "statement": "If two rules files, with the files they include, define the same chains, the apply-rules command does exactly the same with both, in whichever files the chains are and whichever file includes which. The order of includes and chains in the files makes no difference at all: with the entries of every file in any other order the command does the same, or the rules cannot be loaded in either order and nothing is done.", "quantifier": "all file systems with finitely many files, all includes, also cyclic ones, all orders of entries, all journals, worlds and hash iteration orders", "why_tests_cant": "It ranges over all ways to divide rules among files and all file systems.", "anchors": ["src/rules/table/source.rs:File::load", "src/rules/table/source.rs:File::load_into", "src/rules/table/mod.rs:Table::update_transactions", "src/rules/cmd.rs:Command::run"]}
{"id": "C148", "title": "Rules see only descriptions, and the accounts and tags of postings", "statement": "If two journals have transactions with the same descriptions, and postings with the same accounts and tags, rules do the same in both, whatever their dates, codes, amounts, balances, statuses, comments and the tags of the transactions: they end for both or for neither, fail with the same error, or give the same descriptions, accounts and tags of postings. If the tags of the transactions are the same before, they are the same after.", "quantifier": "all rule tables, predicates and nested actions, all pairs of such journals, all regular expressions and hash iteration orders", "why_tests_cant": "It ranges over all programs in the rule language and all pairs of journals.", "anchors": ["src/rules/table/mod.rs:Table::update_transactions", "src/rules/table/mod.rs:Action::apply", "src/rules/table/mod.rs:Predicate::is_match"]}
{"id": "C149", "title": "The option for legacy fingerprints adds one fingerprint to each posting and changes nothing else", "statement": "Importing a statement with the option for legacy fingerprints fails exactly as it does without, or gives the same transactions: each posting, read from the journal written, has one more fingerprint, of the old form fp-NAMESPACE-DIGEST, and is the same in all else (account, amount, balance, status, comment text, value tags, other tags). Nationwide statements with five columns have no legacy fingerprints; their import is the same with and without the option.", "quantifier": "all Nationwide CSV and PayPal statements, readable or not, also with fields that contain line breaks, colons and such, all namespaces, hash iteration orders, date parsers and time zones", "why_tests_cant": "It ranges over all statements and all texts of their fields.", "anchors": ["src/importers/nationwide_csv.rs:form_postings", "src/importers/paypal_csv.rs:form_postings", "src/fingerprint.rs:Fingerprint::legacy_tag", "src/comment.rs"]}
{"id": "C150", "title": "The output time zone of a PayPal import decides dates only, and what was merged is recognised on other dates", "statement": "Importing one PayPal statement with two output time zones fails in the same way, or gives the same transactions but for their dates. What was merged completely from one import is recognised in the other: merging it afterwards changes nothing and leaves nothing over. More generally, transactions that were merged completely are recognised by their postings, whatever their dates, descriptions, codes and comments have become since.", "quantifier": "all PayPal statements, readable or not, all time zones (as any assignment of dates to instants), all sets of transactions merged into any reachable journal, any changed headers, all hash iteration orders", "why_tests_cant": "It ranges over all statements, journals and time zones.", "anchors": ["src/importers/paypal_csv.rs:form_transaction", "src/merge/merger.rs:Merger::merge"]}
{"id": "C151", "title": "A journal with legacy fingerprints is carried over by importing once with the option for them", "statement": "A journal that has each posting of a set of transactions under some of its fingerprints (one posting each, those of a transaction in one transaction), however else edited, takes the set in: nothing is handed back, no transaction or posting is added, and what the journal has is at most refined. After that, a set whose postings have only other ones of these fingerprints, and say nothing else that is new, is recognised: merging it changes nothing. So a Nationwide statement whose payments are in the journal with legacy fingerprints is to be merged once from an import with the option for legacy fingerprints; from then on the same statement imported without the option is recognised. Without that step payments can come to be in the journal twice. The same holds for the merge command and files.", "quantifier": "all journals and sets that merge accepts, all statements without SHA-1 collisions, all namespaces and hash iteration orders", "why_tests_cant": "It ranges over all journals, edits and statements.", "anchors": ["src/merge/merger.rs:Merger::merge", "src/merge/posting.rs", "src/merge/cmd.rs:Command::run", "src/importers/nationwide_csv.rs:form_postings", "src/fingerprint.rs:Fingerprint::legacy_tag"]}
{"id": "C152", "title": "Which ids generate-fingerprints draws makes no difference", "statement": "Run generate-fingerprints twice on the same journal, so that it draws different random ids. As long as the ids of a run are all different and none is in use elsewhere, both runs give fingerprints to the same postings, and the two results are the same but for the ids. Whatever other transactions are merged before or after, each merge hands back the same transactions, or fails, with the one result as with the other, and the journals built are the same but for the ids. The same holds for the files that generate-fingerprints and then the merge command write.", "quantifier": "all journals, all ids drawn, all sequences of merges around it, all hash iteration orders", "why_tests_cant": "The ids are random, and it ranges over all journals and all later merges.", "anchors": ["src/fpgen.rs:update_transactions", "src/merge/merger.rs:Merger::merge", "src/tags.rs"]}
{"id": "C153", "title": "Copies of a journal that were given fingerprints separately can be merged again", "statement": "Let generate-fingerprints be run separately on two copies of a journal without fingerprints, whose postings on one day are told apart by amount, balance and account. Merging the two results hands nothing back: it gives every transaction once, sorted by date, the same as in the journal but that each posting has two more tags, its fingerprints from the two runs. Merging the second result again changes nothing. The same holds for the commands run on two files.", "quantifier": "all journals without fingerprints and candidate tags and with no two postings on one day that soft match, all ids drawn (all different), all hash iteration orders", "why_tests_cant": "It ranges over all journals and all random ids.", "anchors": ["src/fpgen.rs:update_transactions", "src/merge/merger.rs:Merger::merge", "src/merge/posting.rs"]}
{"id": "C154", "title": "Running fmt on journals makes no difference to the commands run afterwards", "statement": "Once fmt has rewritten some journals, and its text is parsed back as it was, any merge, apply-rules, generate-fingerprints and fmt commands run afterwards, one after the other, write the same files with the same content in the same order, and end in the same way, as they would have if fmt had not been run.", "quantifier": "all worlds, all sets of journals given to fmt, all sequences of later commands with all their arguments, all read and write faults, all parsers and printers for which the text printed is parsed back", "why_tests_cant": "It ranges over all sequences of commands and all contents of files.", "anchors": ["src/fmt.rs:Cmd::run", "src/filespec.rs:read_ledger_file", "src/filespec.rs:write_ledger_file", "src/merge/cmd.rs:Command::run", "src/rules/cmd.rs:Command::run", "src/fpgen.rs:Cmd::run"]}
