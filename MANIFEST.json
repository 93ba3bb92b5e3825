{
 "claims": [
  {
   "property": "C01",
   "status": "proved",
   "theorems": [
    "C01_failed_merge_changes_nothing"
   ],
   "note": "For all reachable mergers, input sets and hash orders."
  },
  {
   "property": "C02",
   "status": "proved",
   "theorems": [
    "C02_no_panic"
   ],
   "note": "Panics are explicit outcomes of the model; none is reachable."
  },
  {
   "property": "C03",
   "status": "proved",
   "theorems": [
    "C03_lookup_outcomes",
    "C03_lookup_decides",
    "C03_conflict_fails"
   ],
   "note": "Outcomes are exclusive and exhaustive; the outcome is what the merge does; conflicts fail. 'Recorded date' is the date of the input that created the posting, see C19."
  },
  {
   "property": "C04",
   "status": "proved",
   "theorems": [
    "C04_fingerprints_unique"
   ],
   "note": "All reachable mergers."
  },
  {
   "property": "C05",
   "status": "proved",
   "theorems": [
    "C05_nothing_lost"
   ],
   "note": "Placement is injective, one journal transaction per input transaction, posting count exact."
  },
  {
   "property": "C06",
   "status": "proved",
   "theorems": [
    "C06_remerge_changes_nothing"
   ],
   "note": "Exact equality of the merger, for any two hash orders."
  },
  {
   "property": "C07",
   "status": "proved",
   "theorems": [
    "C07_first_merge_sorts_by_date"
   ],
   "note": "Exact result, including the empty transactions handed back."
  },
  {
   "property": "C08",
   "status": "proved",
   "theorems": [
    "C08_days",
    "C08_date_order",
    "C08_stable"
   ],
   "note": "Sortedness, and per date: earlier transactions then new ones in input order."
  },
  {
   "property": "C09",
   "status": "proved",
   "theorems": [
    "C09_output_remerges_to_itself"
   ],
   "note": "All reachable mergers."
  },
  {
   "property": "C10",
   "status": "proved",
   "theorems": [
    "C10_existing_data_only_refined"
   ],
   "note": "Every field of transactions and postings."
  },
  {
   "property": "C11",
   "status": "proved",
   "theorems": [
    "C11_ambiguous_handed_back"
   ],
   "note": "Tags exactly as documented; the rest of the set is merged as if the unmerged ones were absent."
  },
  {
   "property": "C12",
   "status": "proved",
   "theorems": [
    "C12_duplicate_fingerprints_rejected"
   ],
   "note": "All reachable mergers, all input sets; the merger is also unchanged."
  },
  {
   "property": "C13",
   "status": "proved",
   "theorems": [
    "C13_only_mergeable_accepted"
   ],
   "note": "All reachable mergers, all input sets; the merger is also unchanged."
  },
  {
   "property": "C14",
   "status": "proved",
   "theorems": [
    "C14_one_source_per_destination"
   ],
   "note": "All reachable mergers, all input sets; the merger is also unchanged."
  },
  {
   "property": "C15",
   "status": "proved",
   "theorems": [
    "C15_transactions_not_split"
   ],
   "note": "All reachable mergers, all input sets; the merger is also unchanged."
  },
  {
   "property": "C16",
   "status": "proved",
   "theorems": [
    "C16_lookalikes_stay_separate",
    "C16_sets_independent"
   ],
   "note": "Lookups use only the journal before the call (C03_lookup_decides), look-alikes stay separate, sets are independent."
  },
  {
   "property": "C17",
   "status": "proved",
   "theorems": [
    "C17_every_iteration",
    "C17_same_mergers",
    "C17_one_order",
    "C17_hash_order_irrelevant"
   ],
   "note": "Any two iteration orders; error values may differ (which of several input errors is reported)."
  },
  {
   "property": "C18",
   "status": "proved",
   "theorems": [
    "C18_replay_reproduces"
   ],
   "note": "Histories of any length, any orders."
  },
  {
   "property": "C19",
   "status": "partial",
   "theorems": [
    "C19_exact",
    "C19_history",
    "C19_candidates",
    "C19_soft_match_uses_parent_date_refuted",
    "C19_soft_match_uses_parent_date_partial"
   ],
   "note": "The README rule is false of the code: a posting that joins a transaction of another date is indexed under its own date. Refuted by a concrete history. C19_exact and C19_history say exactly when dates stay right, for one call and for every history; C19_candidates is the rule itself for journals whose dates are right."
  },
  {
   "property": "C20",
   "status": "proved",
   "theorems": [
    "C20_empty_transactions_returned",
    "C20_no_empty_transactions"
   ],
   "note": "All reachable mergers, all input sets; the merger is also unchanged."
  },
  {
   "property": "C21",
   "status": "proved",
   "theorems": [
    "C21_field_rules",
    "C21_idempotent"
   ],
   "note": "Every field; idempotence."
  },
  {
   "property": "C22",
   "status": "proved",
   "theorems": [
    "C22_soft_match",
    "C22_soft_match_symmetric",
    "C22_soft_match_reflexive",
    "C22_amounts_numeric"
   ],
   "note": "Model equality test equals a declarative soft match on rational values."
  },
  {
   "property": "C23",
   "status": "proved",
   "theorems": [
    "C23_balance_changes_by_new_postings",
    "C23_balance_kept"
   ],
   "note": "Exact change per commodity as rationals."
  },
  {
   "property": "C24",
   "status": "proved",
   "theorems": [
    "C24_merge_succeeds_iff_acceptable",
    "C24_otherwise_error"
   ],
   "note": "Exact characterisation of success."
  },
  {
   "property": "C25",
   "status": "proved",
   "theorems": [
    "C25_failure",
    "C25_success"
   ],
   "note": "Failure: any read, parse, conversion or merge failure, or no place for unmerged transactions; untouched at every crash point. Success: given writable files."
  },
  {
   "property": "C26",
   "status": "proved",
   "theorems": [
    "C26_sources",
    "C26_reads",
    "C26_named"
   ],
   "note": "Exact groups, order, and permutation of the input; succeeds on every readable supported journal."
  },
  {
   "property": "C27",
   "status": "proved",
   "theorems": [
    "C27_written",
    "C27_unmerged"
   ],
   "note": "Exactly what a successful run has written, and that every unmerged transaction carries a source tag."
  },
  {
   "property": "C28",
   "status": "proved",
   "theorems": [
    "C28_other_files",
    "C28_unmerged_first",
    "C28_files"
   ],
   "note": "Every crash point, including inside writes and after write failures. Paths are names: two names of one file are not modelled."
  },
  {
   "property": "C29",
   "status": "partial",
   "theorems": [
    "C29_fmt_refuted",
    "C29_fpgen_refuted"
   ],
   "note": "False of the code: File::create empties the journal before it is rewritten; refuted for every journal. What does hold is C72."
  },
  {
   "property": "C30",
   "status": "proved",
   "theorems": [
    "C30_idempotent",
    "C30_comments_needed"
   ],
   "note": "Under the stated round trip of printer and parser; comments must be representable (C31), which C30_comments_needed shows to be necessary."
  },
  {
   "property": "C31",
   "status": "proved",
   "theorems": [
    "C31_comment_round_trip",
    "C31_exact",
    "C31_representable",
    "C31_fixed_texts"
   ],
   "note": "All comments meeting an explicit condition on the text; hash order arbitrary."
  },
  {
   "property": "C32",
   "status": "proved",
   "theorems": [
    "C32_flag_tags_survive"
   ],
   "note": "Only needs that no tag of the comment contains a newline; lines and value tags are arbitrary."
  },
  {
   "property": "C33",
   "status": "proved",
   "theorems": [
    "C33_formatting_canonical"
   ],
   "note": "Any two hash orders."
  },
  {
   "property": "C34",
   "status": "partial",
   "theorems": [
    "C34_value_tags_survive_refuted",
    "C34_value_tags_survive_partial",
    "C34_blank_values_lost"
   ],
   "note": "False of the code for blank values (witness); proved for all other values, and blank ones are always lost unless other text reads as the same key (C34_blank_values_lost)."
  },
  {
   "property": "C35",
   "status": "partial",
   "theorems": [
    "C35_format_fixed_point_refuted",
    "C35_format_fixed_point_partial",
    "C35_exact"
   ],
   "note": "False of the code (witness: \"key:\" alternates between two texts); proved under a stated condition on the parsed comment, and exactly (C35_exact)."
  },
  {
   "property": "C36",
   "status": "proved",
   "theorems": [
    "C36_merge_tags",
    "C36_merge_values",
    "C36_merge_lines",
    "C36_merge_idempotent",
    "C36_merge_associative"
   ],
   "note": "Full laws, including idempotence and associativity of lines."
  },
  {
   "property": "C37",
   "status": "proved",
   "theorems": [
    "C37_parsed_well_formed",
    "C37_flags_found",
    "C37_keys_found",
    "C37_values_found",
    "C37_lines_found",
    "C37_texts_unique"
   ],
   "note": "Shape of every parsed comment, and exactly which flag tags and keys are found."
  },
  {
   "property": "C38",
   "status": "proved",
   "theorems": [
    "C38_nationwide_five",
    "C38_nationwide_six",
    "C38_paypal",
    "C38_nationwide_legacy"
   ],
   "note": "Hashed messages determine their fields."
  },
  {
   "property": "C39",
   "status": "proved",
   "theorems": [
    "C39_self_peer_distinct"
   ],
   "note": "Constructive: equality gives a SHA-1 collision."
  },
  {
   "property": "C40",
   "status": "proved",
   "theorems": [
    "C40_tags_well_formed"
   ],
   "note": "For every builder state reachable from an accepted builder."
  },
  {
   "property": "C41",
   "status": "proved",
   "theorems": [
    "C41_tags_decode",
    "C41_legacy_tags_decode",
    "C41_legacy_not_versioned",
    "C41_built_fingerprints"
   ],
   "note": "Tags decode; witness that unvalidated parts could not be told apart."
  },
  {
   "property": "C42",
   "status": "proved",
   "theorems": [
    "C42_namespace_validation",
    "C42_no_panic",
    "C42_generated_accepted",
    "C42_generated_distinct",
    "C42_chosen"
   ],
   "note": "Exact set of accepted names; generated namespaces are always accepted."
  },
  {
   "property": "C43",
   "status": "proved",
   "theorems": [
    "C43_fingerprints_unique",
    "C43_contiguity_needed"
   ],
   "note": "Constructive: sharing gives a SHA-1 collision. A separate theorem shows that contiguity is needed."
  },
  {
   "property": "C44",
   "status": "proved",
   "theorems": [
    "C44_prefix",
    "C44_append"
   ],
   "note": "Both the prefix law and the law for appended days."
  },
  {
   "property": "C45",
   "status": "proved",
   "theorems": [
    "C45_nationwide_balanced",
    "C45_paypal_balanced"
   ],
   "note": "Exact rational arithmetic on the decimals, every commodity."
  },
  {
   "property": "C46",
   "status": "proved",
   "theorems": [
    "C46_nationwide_accounts",
    "C46_paypal_accounts"
   ],
   "note": "Sign of the exact value; zero goes to one of the two accounts."
  },
  {
   "property": "C47",
   "status": "partial",
   "theorems": [
    "C47_money_exact_refuted"
   ],
   "note": "False of the code as stated (witness \"\u00a31.5\" is read as 1.05); the exact condition is C70."
  },
  {
   "property": "C48",
   "status": "proved",
   "theorems": [
    "C48_rows",
    "C48_fails",
    "C48_accepts",
    "C48_accepts_only"
   ],
   "note": "What every row becomes, failure of other rows, and which statements are accepted."
  },
  {
   "property": "C49",
   "status": "partial",
   "theorems": [
    "C49_nationwide_fingerprinted",
    "C49_paypal_refuted",
    "C49_paypal_peers_bare",
    "C49_paypal_never_merges"
   ],
   "note": "True for Nationwide CSV. False of the code for PayPal without legacy fingerprints: a witness, and in general (C49_paypal_peers_bare, C49_paypal_never_merges) no such import of at least one row can ever be merged. The exact condition is C71."
  },
  {
   "property": "C50",
   "status": "proved",
   "theorems": [
    "C50_groups",
    "C50_nameless_group_fails",
    "C50_accepts"
   ],
   "note": "The runs are unique; failure and acceptance are stated separately."
  },
  {
   "property": "C51",
   "status": "proved",
   "theorems": [
    "C51_unique_in_transaction",
    "C51_unique",
    "C51_stable"
   ],
   "note": "Inside one transaction, and in the whole import when group times differ; independence of status and receipt id."
  },
  {
   "property": "C52",
   "status": "proved",
   "theorems": [
    "C52_nationwide_merges"
   ],
   "note": "End to end with the merge model."
  },
  {
   "property": "C53",
   "status": "proved",
   "theorems": [
    "C53_kept",
    "C53_changes"
   ],
   "note": "Kept fields, and changed fields only as some action of the table asks."
  },
  {
   "property": "C54",
   "status": "proved",
   "theorems": [
    "C54_meaning",
    "C54_journal",
    "C54_bound",
    "C54_one_outcome",
    "C54_return",
    "C54_jump"
   ],
   "note": "Evaluator and declarative big-step relation agree; Return and jump laws."
  },
  {
   "property": "C55",
   "status": "partial",
   "theorems": [
    "C55_missing_chain_refuted",
    "C55_validate",
    "C55_loaded"
   ],
   "note": "False of the code: a jump inside an All action is not validated (witness). C55_validate says what validation does check; C73 is the true statement."
  },
  {
   "property": "C56",
   "status": "partial",
   "theorems": [
    "C56_termination_refuted"
   ],
   "note": "False of the code: a chain may jump to itself (witness). C74 is the true statement."
  },
  {
   "property": "C57",
   "status": "proved",
   "theorems": [
    "C57_meaning",
    "C57_not",
    "C57_boolean",
    "C57_hash_order"
   ],
   "note": "All predicates, contexts and hash orders; regular expressions and lower-casing are parameters."
  },
  {
   "property": "C58",
   "status": "proved",
   "theorems": [
    "C58_stops",
    "C58_rule_error",
    "C58_written",
    "C58_succeeds",
    "C58_crash"
   ],
   "note": "Every failure (also of loading, reading, parsing), every crash point."
  },
  {
   "property": "C59",
   "status": "proved",
   "theorems": [
    "C59_terminates",
    "C59_loaded",
    "C59_sound",
    "C59_errors"
   ],
   "note": "File system with finitely many canonical paths for termination; soundness without."
  },
  {
   "property": "C60",
   "status": "proved",
   "theorems": [
    "C60_added",
    "C60_again",
    "C60_distinct",
    "C60_mergeable",
    "C60_command"
   ],
   "note": "Ids are an arbitrary sequence; freshness is a hypothesis only where it is needed."
  },
  {
   "property": "C61",
   "status": "proved",
   "theorems": [
    "C61_from_ledger",
    "C61_unsupported",
    "C61_into_ledger",
    "C61_there_and_back",
    "C61_exact"
   ],
   "note": "Both directions; the round trip for representable comments."
  },
  {
   "property": "C62",
   "status": "proved",
   "theorems": [
    "C62_utc_offsets",
    "C62_no_panic"
   ],
   "note": "Exact characterisation."
  },
  {
   "property": "C63",
   "status": "proved",
   "theorems": [
    "C63_database",
    "C63_loads"
   ],
   "note": "Exact characterisation."
  },
  {
   "property": "C64",
   "status": "proved",
   "theorems": [
    "C64_tree",
    "C64_no_panic",
    "C64_reading_order"
   ],
   "note": "Acceptance characterised exactly; the tree is determined by the records."
  },
  {
   "property": "C65",
   "status": "partial",
   "theorems": [
    "C65_fingerprints_unique_refuted"
   ],
   "note": "False of the code: a continuation line at the top of a page has no date and restarts the numbering (witness with equal fingerprints). C76 is the true statement."
  },
  {
   "property": "C66",
   "status": "proved",
   "theorems": [
    "C66_groups",
    "C66_lines_unique",
    "C66_groups_exist",
    "C66_accepts",
    "C66_accepts_only",
    "C66_both_fails"
   ],
   "note": "Exact: accepted iff account, namespace, table lines and every group of lines can be read; lines and groups exist and are unique."
  },
  {
   "property": "C67",
   "status": "proved",
   "theorems": [
    "C67_failing_import",
    "C67_stdout",
    "C67_output",
    "C67_replaced",
    "C67_importers_only_read"
   ],
   "note": "All paths, namespaces, importers that only read, failures and crash points; the three importers only read."
  },
  {
   "property": "C68",
   "status": "proved",
   "theorems": [
    "C68_match_set",
    "C68_determined",
    "C68_iterator"
   ],
   "note": "All value types with decidable equality; first-seen order determines the list."
  },
  {
   "property": "C69",
   "status": "proved",
   "theorems": [
    "C69_paypal_merges"
   ],
   "note": "End to end with the merge model."
  },
  {
   "property": "C70",
   "status": "proved",
   "theorems": [
    "C70_money_read",
    "C70_money_accepted",
    "C70_money_exact",
    "C70_minus_before_pound"
   ],
   "note": "Exact condition, for all texts."
  },
  {
   "property": "C71",
   "status": "proved",
   "theorems": [
    "C71_paypal_fingerprinted"
   ],
   "note": "Own postings unconditionally, peers with legacy fingerprints."
  },
  {
   "property": "C72",
   "status": "proved",
   "theorems": [
    "C72_fmt",
    "C72_fmt_done",
    "C72_fpgen",
    "C72_fpgen_done",
    "C72_fmt_succeeds",
    "C72_fpgen_succeeds"
   ],
   "note": "Every crash point; journals named once."
  },
  {
   "property": "C73",
   "status": "proved",
   "theorems": [
    "C73_jumps",
    "C73_validated",
    "C73_errors"
   ],
   "note": "Also that no other failure is possible."
  },
  {
   "property": "C74",
   "status": "proved",
   "theorems": [
    "C74_terminates"
   ],
   "note": "Bound on nesting: number of chains + 1."
  },
  {
   "property": "C75",
   "status": "proved",
   "theorems": [
    "C75_independent",
    "C75_first_failure"
   ],
   "note": "Both directions."
  },
  {
   "property": "C76",
   "status": "proved",
   "theorems": [
    "C76_fingerprints_unique",
    "C76_numbers"
   ],
   "note": "SHA-1 collisions are an explicit alternative."
  },
  {
   "property": "C77",
   "status": "proved",
   "theorems": [
    "C77_dates",
    "C77_accepts"
   ],
   "note": "chrono's parsing of year, day and month is a parameter; the calendar check is modelled."
  },
  {
   "property": "C78",
   "status": "proved",
   "theorems": [
    "C78_balanced",
    "C78_sides"
   ],
   "note": "All documents, options and hash orders."
  },
  {
   "property": "C79",
   "status": "proved",
   "theorems": [
    "C79_merges"
   ],
   "note": "Under the hypotheses of C76."
  },
  {
   "property": "C80",
   "status": "proved",
   "theorems": [
    "C80_no_panic_i32",
    "C80_no_panic"
   ],
   "note": "Bound on the lines because of the i32 sequence number; C80_no_panic is for exact arithmetic, C80_no_panic_i32 for i32 with and without overflow checks."
  },
  {
   "property": "C81",
   "status": "proved",
   "theorems": [
    "C81_account_name_fails",
    "C81_generated_works"
   ],
   "note": "All documents."
  },
  {
   "property": "C82",
   "status": "proved",
   "theorems": [
    "C82_record_order"
   ],
   "note": "From the exact characterisation of C64."
  },
  {
   "property": "C83",
   "status": "proved",
   "theorems": [
    "C83_one_column",
    "C83_cut_word_fails"
   ],
   "note": "Header edges in the usual order; and a witness for a cut word."
  },
  {
   "property": "C84",
   "status": "proved",
   "theorems": [
    "C84_edits_survive"
   ],
   "note": "The edit is any journal that keeps fingerprints and does not split transactions; refinement is defined in MergeClaims (post_refines)."
  },
  {
   "property": "C85",
   "status": "proved",
   "theorems": [
    "C85_rules_survive"
   ],
   "note": "For every table without actions on fingerprint or candidate tags, and any regular expression semantics."
  },
  {
   "property": "C86",
   "status": "proved",
   "theorems": [
    "C86_overlapping_sets",
    "C86_separate_sets"
   ],
   "note": "C86_separate_sets does not need days."
  },
  {
   "property": "C87",
   "status": "proved",
   "theorems": [
    "C87_overlapping_statements"
   ],
   "note": "Compared with one statement of the days seen; different statements may have different header lines and be imported with different hash orders. C89 shows that whole days are needed."
  },
  {
   "property": "C88",
   "status": "proved",
   "theorems": [
    "C88_overlapping_paypal"
   ],
   "note": "Legacy fingerprints are needed for merging at all (C49, C69)."
  },
  {
   "property": "C89",
   "status": "partial",
   "theorems": [
    "C89_cut_renumbers",
    "C89_cut_within_a_day_refuted"
   ],
   "note": "Refuted: a statement that begins between two equal payments of one day gives the second the fingerprint of the first, and the payment is lost; one that ends between them makes merging the whole day fail. C87 is the true version. C89_cut_renumbers says in general which rows get other fingerprints: exactly those with only rows of their date between them and the cut, and one before it."
  },
  {
   "property": "C90",
   "status": "proved",
   "theorems": [
    "C90_is_match",
    "C90_leftmost",
    "C90_digit",
    "C90_comment",
    "C90_fingerprint_parts",
    "C90_utc_offset",
    "C90_money",
    "C90_account_name"
   ],
   "note": "A matcher for the syntax the source uses (RegexModel.v), proved sound, complete and leftmost for a declarative meaning (RegexClaims.v); the scanners of the model are proved equal to it on the expressions as written in the source. The preference among matches at one place is by definition of the matcher."
  },
  {
   "property": "C91",
   "status": "proved",
   "theorems": [
    "C91_every_iteration",
    "C91_one_order",
    "C91_same_files"
   ],
   "note": "Writing must not fail: a disk that fills up can fail at the unmerged file in one run and not in the other."
  },
  {
   "property": "C92",
   "status": "proved",
   "theorems": [
    "C92_reads",
    "C92_poisoned",
    "C92_poisoned_panics",
    "C92_works"
   ],
   "note": "The functions passed in are arbitrary and may panic."
  },
  {
   "property": "C93",
   "status": "proved",
   "theorems": [
    "C93_choice",
    "C93_merged"
   ],
   "note": "Groups of inputs are one call of merge each, as in the command. Hypotheses: merges in between have none of the fingerprints of the transaction, its other postings are not ambiguous, and the choices are different postings of one transaction (otherwise merge fails, C14, C15)."
  },
  {
   "property": "C94",
   "status": "proved",
   "theorems": [
    "C94_contained_changes_nothing"
   ],
   "note": "Generalises C06: the input need not have been merged before."
  },
  {
   "property": "C95",
   "status": "partial",
   "theorems": [
    "C95_pages_in_order_partial",
    "C95_longer_refuted"
   ],
   "note": "True up to 100 pages (C95_pages_in_order_partial). Refuted beyond: page-100.png sorts before page-11.png, so page 101 is read before page 12 (C95_longer_refuted, for every statement of more than 100 pages; C95_longer_ex)."
  },
  {
   "property": "C96",
   "status": "partial",
   "theorems": [
    "C96_cannot_run_partial",
    "C96_status_refuted",
    "C96_short_statement_refuted"
   ],
   "note": "Programs that cannot be run or leave no text fail the import (C96_cannot_run_partial). Refuted otherwise: exit statuses are dropped (C96_status_refuted), so a statement rendered only in part is imported without the rest (C96_short_statement_refuted)."
  },
  {
   "property": "C97",
   "status": "proved",
   "theorems": [
    "C97_namespace",
    "C97_file",
    "C97_nationwide_csv",
    "C97_nationwide_pdf",
    "C97_paypal"
   ],
   "note": "The ron crate is a parameter; what each kind of namespace does is in C42, C43, C78."
  },
  {
   "property": "C98",
   "status": "proved",
   "theorems": [
    "C98_headers"
   ],
   "note": "For any relation between the headers that keeps the date."
  },
  {
   "property": "C99",
   "status": "proved",
   "theorems": [
    "C99_command_merges",
    "C99_command_fails",
    "C99_source_tags"
   ],
   "note": "Printing and parsing of ledgers is a parameter."
  },
  {
   "property": "C100",
   "status": "proved",
   "theorems": [
    "C100_pdf",
    "C100_nationwide",
    "C100_paypal"
   ],
   "note": "Printing and parsing of ledgers and of CSV is a parameter; what is printed for the imported transactions is supposed to be read back, and SHA-1 not to collide on the statement."
  },
  {
   "property": "C101",
   "status": "partial",
   "theorems": [
    "C101_repeated_key_refuted",
    "C101_second_time_refuted",
    "C101_reformatting_keeps_partial"
   ],
   "note": "False: of a key given twice only the last value is kept (C101_repeated_key_refuted), and text that looks like a value tag behind a flag tag is kept the first time and taken for a value tag the second time, so it can be lost then (C101_second_time_refuted). The partial theorem says that everything else is kept."
  },
  {
   "property": "C102",
   "status": "proved",
   "theorems": [
    "C102_nationwide",
    "C102_paypal",
    "C102_pdf"
   ],
   "note": "Fields are supposed to have no line breaks. A blank field is written as `key: ` and read back as text, not as a value tag; the theorem says it is no value tag."
  },
  {
   "property": "C103",
   "status": "proved",
   "theorems": [
    "C103_layout",
    "C103_one_layout"
   ],
   "note": "The layout is a relation written apart from the model; it determines the text."
  },
  {
   "property": "C104",
   "status": "proved",
   "theorems": [
    "C104_what_a_journal_says",
    "C104_description_is_complete"
   ],
   "note": "The place of every input posting is an existential witness; that it is the matching one is C05 to C09. The relation composed is written apart from the model and determines the posting (C104_description_is_complete)."
  },
  {
   "property": "C105",
   "status": "proved",
   "theorems": [
    "C105_order_of_inputs",
    "C105_order_free",
    "C105_acceptance_depends_on_order",
    "C105_soft_matches_depend_on_order"
   ],
   "note": "C105_acceptance_depends_on_order and C105_soft_matches_depend_on_order are witnesses that the conditions are needed."
  },
  {
   "property": "C106",
   "status": "proved",
   "theorems": [
    "C106_remerge_with_inputs"
   ],
   "note": "Printing and parsing of ledgers is a parameter; the text written by the first run is supposed to be read back."
  },
  {
   "property": "C107",
   "status": "proved",
   "theorems": [
    "C107_in_parts",
    "C107_recorded_dates",
    "C107_dates_needed",
    "C107_command"
   ],
   "note": "C107_in_parts at the level of journals, with any division into calls; C107_command through the files, where the parser is supposed to read back the text of the first run. C107_recorded_dates is the version for any journal whose postings are recorded under the dates of their transactions; C107_dates_needed shows two runs that differ otherwise."
  },
  {
   "property": "C108",
   "status": "proved",
   "theorems": [
    "C108_pdf",
    "C108_pdf_command",
    "C108_nationwide",
    "C108_paypal",
    "C108_nationwide_command",
    "C108_paypal_command"
   ],
   "note": "Printing and parsing of ledgers is a parameter; the texts of the imports and of the ruled journals are supposed to be read back."
  },
  {
   "property": "C109",
   "status": "proved",
   "theorems": [
    "C109_records",
    "C109_fit",
    "C109_checked",
    "C109_unchecked",
    "C109_bound_is_sharp"
   ],
   "note": "Transfers the theorems on PdfModel.v (C65, C66, C76-C83) to arithmetic on i32."
  },
  {
   "property": "C110",
   "status": "proved",
   "theorems": [
    "C110_pieces",
    "C110_order",
    "C110_regrouped",
    "C110_apart_needed"
   ],
   "note": "C110_apart_needed is a witness that the condition on look-alikes is needed."
  },
  {
   "property": "C111",
   "status": "proved",
   "theorems": [
    "C111_all",
    "C111_command"
   ],
   "note": "C111_command assumes that printer and parser agree on the text of the first run. C111_order shows that originals that come before the edited transactions are handed back again."
  },
  {
   "property": "C112",
   "status": "proved",
   "theorems": [
    "C112_joined",
    "C112_both",
    "C112_pieces",
    "C112_apart_needed",
    "C112_command"
   ],
   "note": "C112_apart_needed shows what happens to two payments of one amount on one day: those of the second source are handed back."
  },
  {
   "property": "C113",
   "status": "proved",
   "theorems": [
    "C113_csv_then_pdf",
    "C113_pdf_then_csv",
    "C113_payment",
    "C113_command",
    "C113_command_reversed"
   ],
   "note": "C112_apart_needed shows why payments of one day have to differ in size."
  },
  {
   "property": "C114",
   "status": "proved",
   "theorems": [
    "C114_overlapping_pdf"
   ],
   "note": "Assumes every line is under the date of its day, which a page break inside a transaction violates (C65_fingerprints_unique_refuted), and that no two messages hashed collide."
  },
  {
   "property": "C115",
   "status": "proved",
   "theorems": [
    "C115_looked_at"
   ],
   "note": "The iteration order of a hash set is a function of the set, the same in both runs."
  },
  {
   "property": "C116",
   "status": "proved",
   "theorems": [
    "C116_tags_exact",
    "C116_merging_files",
    "C116_ordinary"
   ],
   "note": "The ledger-parser crate's printer and parser are taken to keep everything but the comment text's reading. C116_invented shows a fingerprint made out of a value under a key that is a tab."
  },
  {
   "property": "C117",
   "status": "proved",
   "theorems": [
    "C117_row_time",
    "C117_transactions",
    "C117_one_time",
    "C117_day_numbers"
   ],
   "note": "What date an instant has in the output zone is chrono-tz's business and a parameter of the model; so are dates at the ends of chrono's range."
  },
  {
   "property": "C118",
   "status": "proved",
   "theorems": [
    "C118_joined",
    "C118_both",
    "C118_commands"
   ],
   "note": "That generated ids are distinct and new is a hypothesis (random UUIDs). Without generate-fingerprints the journal is refused, see the example."
  },
  {
   "property": "C119",
   "status": "proved",
   "theorems": [
    "C119_alternates",
    "C119_spaces",
    "C119_files",
    "C119_settles",
    "C119_settled",
    "C119_solid"
   ],
   "note": "The examples show texts for which the bounds cannot be lowered, and one that never stops alternating (compare C35). C119_settles and C119_settled say exactly which comments settle, C119_solid gives a simple condition for it."
  },
  {
   "property": "C120",
   "status": "proved",
   "theorems": [
    "C120_renamed",
    "C120_moved",
    "C120_replaced",
    "C120_within",
    "C120_never",
    "C120_noop",
    "C120_last",
    "C120_predicate",
    "C120_all",
    "C120_any",
    "C120_swap",
    "C120_command"
   ],
   "note": "The examples also show rearrangements that are not safe: moving a rule that returns and has others after it, splitting the actions of a conditional rule."
  },
  {
   "property": "C121",
   "status": "proved",
   "theorems": [
    "C121_everything_goes_somewhere",
    "C121_with_sources"
   ],
   "note": "C121_with_sources is for all input files, C121_everything_goes_somewhere says the same more directly for files without source tags."
  },
  {
   "property": "C122",
   "status": "proved",
   "theorems": [
    "C122_rules",
    "C122_one",
    "C122_command",
    "C122_nationwide",
    "C122_twice"
   ],
   "note": "The rules file is modelled entry by entry; its text format (RON) is not. C122_twice is a finding about the example: the rules delete the value tags they decide by."
  },
  {
   "property": "C123",
   "status": "proved",
   "theorems": [
    "C123_nationwide",
    "C123_paypal",
    "C123_pdf",
    "C123_nationwide_command",
    "C123_paypal_command",
    "C123_pdf_command",
    "C123_order_matters"
   ],
   "note": "Hypotheses as in C108: whole days, no two postings with the same fingerprint, files that can be read back. C123_order_matters shows by two sets why the statements must agree on the days they share."
  },
  {
   "property": "C124",
   "status": "proved",
   "theorems": [
    "C124_elsewhere",
    "C124_settled",
    "C124_command",
    "C124_take_turns"
   ],
   "note": "Conditions on the table, not on its results: looks_elsewhere and replaces_once (C124_elsewhere, C124_command); C124_settled covers rules guarded by a property that their own work removes. C124_take_turns: a table of two rules that swaps two accounts for ever."
  },
  {
   "property": "C125",
   "status": "proved",
   "theorems": [
    "C125_nationwide",
    "C125_paypal",
    "C125_pdf"
   ],
   "note": "Both directions, for each of the three importers (C125_nationwide, C125_paypal, C125_pdf). Postings of importers of different kinds are not compared; with legacy fingerprints and one namespace their tags differ only by the digest."
  },
  {
   "property": "C126",
   "status": "proved",
   "theorems": [
    "C126_no_panic",
    "C126_same",
    "C126_checked",
    "C126_unchecked",
    "C126_transfer",
    "C126_wrapped",
    "C126_wrong_amount"
   ],
   "note": "The C126_transfer theorem carries every theorem about successful Nationwide CSV imports over to release builds."
  },
  {
   "property": "C127",
   "status": "proved",
   "theorems": [
    "C127_merge",
    "C127_rules",
    "C127_nationwide",
    "C127_paypal",
    "C127_pdf",
    "C127_apart_needed"
   ],
   "note": "Proved for merge, apply-rules and the three importers. C127_apart_needed shows that the condition on inputs and outputs is necessary. fmt and generate-fingerprints write what they read, see C29 and C72."
  },
  {
   "property": "C128",
   "status": "proved",
   "theorems": [
    "C128_values",
    "C128_messages",
    "C128_numbers",
    "C128_raw_needed",
    "C128_types_needed"
   ],
   "note": "Proved. C128_raw_needed and C128_types_needed show that the conditions are necessary."
  },
  {
   "property": "C129",
   "status": "proved",
   "theorems": [
    "C129_script",
    "C129_files",
    "C129_unmerged_stays"
   ],
   "note": "Proved. C129_unmerged_stays is a witness that a file of unmerged transactions can be out of date. C127 is the version for one command."
  },
  {
   "property": "C130",
   "status": "proved",
   "theorems": [
    "C130_sums",
    "C130_off_by_counterparts",
    "C130_total",
    "C130_in_balance",
    "C130_history",
    "C130_command",
    "C130_halves"
   ],
   "note": "Sums are of the amounts that are written; a posting without an amount counts as zero."
  },
  {
   "property": "C131",
   "status": "proved",
   "theorems": [
    "C131_nationwide",
    "C131_paypal",
    "C131_pdf",
    "C131_nationwide_ruled",
    "C131_paypal_ruled",
    "C131_pdf_ruled",
    "C131_nationwide_command",
    "C131_paypal_command",
    "C131_pdf_command",
    "C131_order_needed"
   ],
   "note": "Days must be covered whole and digests must not collide, as for C87, C88, C108 and C114."
  },
  {
   "property": "C132",
   "status": "proved",
   "theorems": [
    "C132_journal",
    "C132_command",
    "C132_balances",
    "C132_in_balance",
    "C132_alike_needed"
   ],
   "note": "Days must be covered whole and digests of one account must not collide, as for C87, C88, C108 and C114; nothing is assumed of digests across accounts, because namespaces keep them apart."
  },
  {
   "property": "C133",
   "status": "proved",
   "theorems": [
    "C133_journal",
    "C133_again",
    "C133_balances"
   ],
   "note": "Assumes, as C100 and C108, that what the program prints is read back (ledger-parser is not modelled), and that digests of one account do not collide."
  },
  {
   "property": "C134",
   "status": "proved",
   "theorems": [
    "C134_amounts",
    "C134_accepts",
    "C134_one_number"
   ],
   "note": "Assumes that Decimal::from_str reads plain decimals of up to 28 digits exactly (rust_decimal is not modelled); C134_ex gives a reader that does. Compare C47 and C70 for CSV statements."
  },
  {
   "property": "C135",
   "status": "proved",
   "theorems": [
    "C135_next_statement",
    "C135_once",
    "C135_rules",
    "C135_command",
    "C135_nationwide",
    "C135_paypal",
    "C135_pdf"
   ],
   "note": "C84 is about merging the same inputs again into an edited journal, C86 about a journal that is not edited; here both happen in one history. C135_nationwide, C135_paypal and C135_pdf say that imports of downloaded statements of whole days are made of parts of one such stream."
  },
  {
   "property": "C136",
   "status": "proved",
   "theorems": [
    "C136_once",
    "C136_again",
    "C136_rules",
    "C136_command",
    "C136_again_command"
   ],
   "note": "C135 says in addition that the next statement is accepted and what it adds, for statements that are cut from one stream; here nothing is assumed of the statements. C84 is about one edit of a journal whose inputs were all merged cleanly."
  },
  {
   "property": "C137",
   "status": "proved",
   "theorems": [
    "C137_deleted_payments_return",
    "C137_command"
   ],
   "note": "C137_not_mistaken_needed shows that the proviso is needed."
  },
  {
   "property": "C138",
   "status": "proved",
   "theorems": [
    "C138_last_again",
    "C138_last_on_built",
    "C138_command",
    "C138_in_place",
    "C138_last_needed"
   ],
   "note": "C138_last_needed shows that repeating an earlier input can change the journal."
  },
  {
   "property": "C139",
   "status": "proved",
   "theorems": [
    "C139_files",
    "C139_parts",
    "C139_command",
    "C139_past_years",
    "C139_unconcerned_needed"
   ],
   "note": "C139_unconcerned_needed shows that the proviso is needed; C139_past_years gives the case of past years."
  },
  {
   "property": "C140",
   "status": "proved",
   "theorems": [
    "C140_merges",
    "C140_any_order",
    "C140_command",
    "C140_apart_needed"
   ],
   "note": "C140_apart_needed shows that the first proviso is needed."
  },
  {
   "property": "C141",
   "status": "proved",
   "theorems": [
    "C141_renamed",
    "C141_command",
    "C141_apart_needed"
   ],
   "note": "C141_apart_needed shows that two accounts given the same name can be confused."
  },
  {
   "property": "C142",
   "status": "proved",
   "theorems": [
    "C142_placed",
    "C142_placed_i32",
    "C142_together_needed"
   ],
   "note": "C142_together_needed shows that the words of one paragraph have to be moved together."
  },
  {
   "property": "C143",
   "status": "proved",
   "theorems": [
    "C143_no_trace",
    "C143_history",
    "C143_again",
    "C143_command"
   ],
   "note": "C143_history is the same for any history; C143_again: merging the last sets again without what was handed back changes nothing; C143_command: the same for files."
  },
  {
   "property": "C144",
   "status": "proved",
   "theorems": [
    "C144_retagged",
    "C144_command",
    "C144_apart_needed",
    "C144_unknown_needed"
   ],
   "note": "C144_apart_needed and C144_unknown_needed show that the conditions are needed."
  },
  {
   "property": "C145",
   "status": "proved",
   "theorems": [
    "C145_redated",
    "C145_command",
    "C145_apart_needed",
    "C145_order_needed"
   ],
   "note": "C145_apart_needed and C145_order_needed show that the condition is needed."
  },
  {
   "property": "C146",
   "status": "proved",
   "theorems": [
    "C146_other",
    "C146_written",
    "C146_command",
    "C146_apart_needed"
   ],
   "note": "C146_written is the case that amounts are only written differently; C146_apart_needed shows that the condition is needed."
  },
  {
   "property": "C147",
   "status": "proved",
   "theorems": [
    "C147_divided",
    "C147_order"
   ],
   "note": "The files must be readable and define no chain twice for C147_divided; C147_order has no such condition."
  },
  {
   "property": "C148",
   "status": "proved",
   "theorems": [
    "C148_looks",
    "C148_tagged"
   ],
   "note": "With C53 (all else is kept) this says what rules read and what they write."
  },
  {
   "property": "C149",
   "status": "proved",
   "theorems": [
    "C149_nationwide",
    "C149_nationwide_five",
    "C149_paypal"
   ],
   "note": "That the added fingerprint is not one of the new form follows from C41."
  },
  {
   "property": "C150",
   "status": "proved",
   "theorems": [
    "C150_only_dates",
    "C150_imported_again",
    "C150_recognised_by_postings"
   ],
   "note": "How the descriptions and other headers of recognised transactions are treated is C94; here they are shown to be without effect."
  },
  {
   "property": "C151",
   "status": "proved",
   "theorems": [
    "C151_taken_in",
    "C151_known",
    "C151_legacy",
    "C151_without",
    "C151_option_needed",
    "C151_command"
   ],
   "note": "C151_option_needed shows that the step with the option is needed. For PayPal the last part does not apply: see C49, imports without the option cannot be merged."
  },
  {
   "property": "C152",
   "status": "proved",
   "theorems": [
    "C152_ids",
    "C152_different_needed",
    "C152_commands"
   ],
   "note": "C152_different_needed shows that the ids must be different: if one is drawn twice, the journal can no longer be merged."
  },
  {
   "property": "C153",
   "status": "proved",
   "theorems": [
    "C153_copies",
    "C153_apart_needed",
    "C153_commands"
   ],
   "note": "C153_apart_needed shows that postings must be told apart: two payments of one amount on one day are handed back."
  },
  {
   "property": "C154",
   "status": "proved",
   "theorems": [
    "C154_tidied",
    "C154_layout",
    "C154_whatever",
    "C154_write_needed",
    "C154_back_needed"
   ],
   "note": "C154_back_needed shows that the text must be parsed back, C154_write_needed that no write may break off half way. C154_layout is the same for journals laid out differently by hand. The import commands are left out: they read statements, not journals."
  }
 ]
}