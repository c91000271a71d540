{
 "claims": [
  {
   "property": "C01",
   "status": "proved",
   "theorems": [
    "C01_history",
    "C01_by_name",
    "C01_len",
    "C01_spelling",
    "C01_nil",
    "C01_none"
   ],
   "note": ""
  },
  {
   "property": "C02",
   "status": "proved",
   "theorems": [
    "C02_text",
    "C02_text_determines"
   ],
   "note": ""
  },
  {
   "property": "C03",
   "status": "proved",
   "theorems": [
    "C03_round_trip",
    "C03_read_exact",
    "C03_read_accepts",
    "C03_unknown_right_reported_refuted"
   ],
   "note": ""
  },
  {
   "property": "C04",
   "status": "proved",
   "theorems": [
    "C04_disposition",
    "C04_constructors"
   ],
   "note": ""
  },
  {
   "property": "C05",
   "status": "proved",
   "theorems": [
    "C05_history",
    "C05_attribute_constant",
    "C05_length",
    "C05_ignored"
   ],
   "note": "For every bit library that meets the contract; arguments name levels 0-9 as constants, ints or digit strings."
  },
  {
   "property": "C06",
   "status": "proved",
   "theorems": [
    "C06_round_trip",
    "C06_no_level"
   ],
   "note": "The keyword of the inner attribute part is not carried by the text; see C49."
  },
  {
   "property": "C07",
   "status": "partial",
   "theorems": [
    "C07_no_panic_refuted",
    "C07_exact",
    "C07_tree_refuted"
   ],
   "note": "False of the code. The refutation and the exact set of panicking values are proved."
  },
  {
   "property": "C08",
   "status": "partial",
   "theorems": [
    "C08_unknown_level_reported_refuted",
    "C08_known_levels_partial",
    "C08_exact",
    "C08_exact_levels",
    "C08_dropped"
   ],
   "note": "False of the code: refuted for every in-contract bit library. The part about lists of known levels is proved. C08_exact and C08_exact_levels say, for every byte string and a bit library that leaves its value alone when given zero, which texts are read and which levels they set: exactly the known ones among the comma-separated items; C08_dropped: a leading unknown item is as if it were not there."
  },
  {
   "property": "C09",
   "status": "proved",
   "theorems": [
    "C09_accept",
    "C09_days",
    "C09_set_only",
    "C09_rule",
    "C09_spelling"
   ],
   "note": "For every bit library that meets the contract."
  },
  {
   "property": "C10",
   "status": "proved",
   "theorems": [
    "C10_history",
    "C10_text",
    "C10_len",
    "C10_round_trip",
    "C10_empty"
   ],
   "note": "Day arguments that contain bit 0 (no day) are excluded; any int, string or other argument is covered."
  },
  {
   "property": "C11",
   "status": "proved",
   "theorems": [
    "C11_round_trip",
    "C11_order",
    "C11_accept",
    "C11_accepted_text",
    "C11_time_value"
   ],
   "note": ""
  },
  {
   "property": "C12",
   "status": "partial",
   "theorems": [
    "C12_set_reports_refuted",
    "C12_exact"
   ],
   "note": "False of the code. The refutation and the exact behaviour (every text that is not a clock time becomes a valid 0000) are proved."
  },
  {
   "property": "C13",
   "status": "proved",
   "theorems": [
    "C13_text",
    "C13_unset",
    "C13_interval"
   ],
   "note": ""
  },
  {
   "property": "C14",
   "status": "proved",
   "theorems": [
    "C14_history",
    "C14_history_zero_value",
    "C14_constructor",
    "C14_accept",
    "C14_accepted_text",
    "C14_unsupported_argument_refuted",
    "C14_number",
    "C14_not_number",
    "C14_spelling"
   ],
   "note": "Also shows that an argument of an unsupported type turns the zero value into strength 1. Decimal texts ask for the number they write (C14_number); other texts ask for 0, except that a text beginning like a number of 2^64 or more asks for 256 whatever follows (C14_not_number)."
  },
  {
   "property": "C15",
   "status": "proved",
   "theorems": [
    "C15_match",
    "C15_round_trip",
    "C15_default_text",
    "C15_accept",
    "C15_by_number"
   ],
   "note": "For every iteration order of the table and both settings of AuthenticationMethodLowerCase."
  },
  {
   "property": "C16",
   "status": "partial",
   "theorems": [
    "C16_read",
    "C16_target_name",
    "C16_standard_name",
    "C16_accept",
    "C16_standard_name_refuted",
    "C16_exact_names",
    "C16_by_number",
    "C16_spelling"
   ],
   "note": "Proved except that the URI name of the subordinate scope is base, which is shown as a refutation."
  },
  {
   "property": "C17",
   "status": "proved",
   "theorems": [
    "C17_bind_keyword",
    "C17_target_keyword",
    "C17_bind_type",
    "C17_operator",
    "C17_print",
    "C17_read_back",
    "C17_allowed",
    "C17_unknown_operator",
    "C17_letter_case",
    "C17_numbers",
    "C17_valid_operator",
    "C17_compare",
    "C17_spelling"
   ],
   "note": "For every iteration order of the tables."
  },
  {
   "property": "C18",
   "status": "partial",
   "theorems": [
    "C18_target",
    "C18_TR",
    "C18_bind_refuted",
    "C18_bind_partial",
    "C18_BR_partial",
    "C18_bind_exact"
   ],
   "note": "Proved for target rules. False of the code for bind rules: Valid does not look at the keyword, and SetKeyword after SetOperator is not re-checked (C18_bind_refuted). Proved for bind rules whose known keyword is set before any operator and not changed afterwards. C18_bind_exact: a bind rule is valid exactly when it has some keyword text, a value, and an operator that was admitted by the keyword in force when it was set."
  },
  {
   "property": "C19",
   "status": "proved",
   "theorems": [
    "C19_history",
    "C19_history_zero",
    "C19_defined",
    "C19_text",
    "C19_rule"
   ],
   "note": ""
  },
  {
   "property": "C20",
   "status": "proved",
   "theorems": [
    "C20_labels",
    "C20_defined",
    "C20_call",
    "C20_text",
    "C20_rule",
    "C20_marker"
   ],
   "note": "The rule reader also accepts the literal marker text <invalid_fqdn_or_label>; stated in C20_rule."
  },
  {
   "property": "C21",
   "status": "partial",
   "theorems": [
    "C21_long_name_rejected_refuted",
    "C21_short_name_accepted_refuted",
    "C21_exact"
   ],
   "note": "False of the code in both directions. The refutations and the exact behaviour (2 to 15 labels) are proved."
  },
  {
   "property": "C22",
   "status": "proved",
   "theorems": [
    "C22_accepted",
    "C22_rejected",
    "C22_ascii_letters"
   ],
   "note": ""
  },
  {
   "property": "C23",
   "status": "proved",
   "theorems": [
    "C23_print",
    "C23_round_trip",
    "C23_accept",
    "C23_read_type",
    "C23_read_value",
    "C23_first_attribute",
    "C23_second_half",
    "C23_keyword"
   ],
   "note": ""
  },
  {
   "property": "C24",
   "status": "partial",
   "theorems": [
    "C24_no_panic_refuted",
    "C24_exact"
   ],
   "note": "False of the code. The refutation and the exact set of panicking texts are proved."
  },
  {
   "property": "C25",
   "status": "partial",
   "theorems": [
    "C25_keyword_kept_refuted",
    "C25_exact",
    "C25_rule_keeps_keyword"
   ],
   "note": "False of the code for Parse, which drops the keyword; the rule reader keeps it."
  },
  {
   "property": "C26",
   "status": "proved",
   "theorems": [
    "C26_prefix",
    "C26_rebuild",
    "C26_empty",
    "C26_set",
    "C26_set_empty"
   ],
   "note": "For the value LocalScheme has at start."
  },
  {
   "property": "C27",
   "status": "proved",
   "theorems": [
    "C27_distinct",
    "C27_distinct_pairs",
    "C27_keyword",
    "C27_push",
    "C27_foreign_keyword"
   ],
   "note": "For any equality in the place of case folding."
  },
  {
   "property": "C28",
   "status": "partial",
   "theorems": [
    "C28_rejected_refuted",
    "C28_exact_target",
    "C28_exact_bind"
   ],
   "note": "False of the code: any text of three bytes without = is accepted. The refutation and the exact set of accepted values are proved."
  },
  {
   "property": "C29",
   "status": "proved",
   "theorems": [
    "C29_members",
    "C29_push",
    "C29_exact"
   ],
   "note": "For every dot-notation validator whose texts are not empty; bare keywords are the subject of C50."
  },
  {
   "property": "C30",
   "status": "partial",
   "theorems": [
    "C30_all_values_refuted",
    "C30_exact",
    "C30_good_values"
   ],
   "note": "False of the code for every validator with a good and a bad text. The exact behaviour, and the claim for good and different values, are proved."
  },
  {
   "property": "C31",
   "status": "partial",
   "theorems": [
    "C31_all_attributes_refuted",
    "C31_exact",
    "C31_single_partial"
   ],
   "note": "False of the code: the first value is repeated. The refutation and the exact behaviour are proved."
  },
  {
   "property": "C32",
   "status": "partial",
   "theorems": [
    "C32_distinct_refuted",
    "C32_push_exact",
    "C32_names_partial"
   ],
   "note": "Uniqueness is false of the code and refuted; all members are attribute names (proved); the exact effect of Push is proved."
  },
  {
   "property": "C33",
   "status": "proved",
   "theorems": [
    "C33_filter",
    "C33_filter_method",
    "C33_operation",
    "C33_list",
    "C33_rule",
    "C33_blanks_refuted"
   ],
   "note": "A list read with semicolons comes back as a comma list (C53). C33_blanks_refuted shows the single-space proviso is needed."
  },
  {
   "property": "C34",
   "status": "partial",
   "theorems": [
    "C34_all_items_refuted",
    "C34_exact",
    "C34_distinct_items_partial"
   ],
   "note": "False of the code: items with an empty filter and repeated items are dropped. The exact set of accepted texts and their members is proved."
  },
  {
   "property": "C35",
   "status": "proved",
   "theorems": [
    "C35_rejected",
    "C35_accepted",
    "C35_search_form",
    "C35_attr_value_form",
    "C35_plain_form",
    "C35_stable"
   ],
   "note": ""
  },
  {
   "property": "C36",
   "status": "partial",
   "theorems": [
    "C36_kept_refuted",
    "C36_exact_filter",
    "C36_exact_value",
    "C36_exact_plain",
    "C36_kept_partial",
    "C36_exact_no_dn"
   ],
   "note": "False of the code: attributes without a filter are lost, an unknown scope becomes base. The printed text is given exactly for every accepted URI."
  },
  {
   "property": "C37",
   "status": "proved",
   "theorems": [
    "C37_unique",
    "C37_push_accepts",
    "C37_push_refuses"
   ],
   "note": ""
  },
  {
   "property": "C38",
   "status": "proved",
   "theorems": [
    "C38_valid_distinct",
    "C38_no_equal_texts",
    "C38_text",
    "C38_push",
    "C38_push_text"
   ],
   "note": "Comparison of texts is an arbitrary reflexive relation in C38_no_equal_texts and any relation elsewhere."
  },
  {
   "property": "C39",
   "status": "proved",
   "theorems": [
    "C39_label",
    "C39_never_changes",
    "C39_routing"
   ],
   "note": "Histories of Set and of Push/Pop on the two lists; Parse replaces the whole instruction (C48_exact)."
  },
  {
   "property": "C40",
   "status": "partial",
   "theorems": [
    "C40_partial",
    "C40_refuted",
    "C40_exact",
    "C40_valid"
   ],
   "note": "False of the code. Push condenses blanks in the new text but not in the texts of the members, so an instruction with two blanks in a row (for instance in its label) can be pushed twice. C40_exact says which instructions are taken; C40_partial: texts that condensing leaves alone."
  },
  {
   "property": "C41",
   "status": "partial",
   "theorems": [
    "C41_meaning_partial",
    "C41_assignments",
    "C41_succeeds",
    "C41_refuted"
   ],
   "note": "False of the code for trees with a rule that does not convert: it is left out with its successors (see C42). Proved for all other trees whose stacks are AND, OR or NOT."
  },
  {
   "property": "C42",
   "status": "partial",
   "theorems": [
    "C42_refuted",
    "C42_exact",
    "C42_exact_failure",
    "C42_first_partial",
    "C42_unknown"
   ],
   "note": "False of the code. C42_exact, C42_exact_failure and C42_unknown say exactly what comes out."
  },
  {
   "property": "C43",
   "status": "partial",
   "theorems": [
    "C43_words",
    "C43_idempotent_partial",
    "C43_kept_partial",
    "C43_idempotent_refuted",
    "C43_kept_refuted",
    "C43_exact",
    "C43_no_redundant_blanks",
    "C43_exact_ascii",
    "C43_unicode_trim",
    "C43_fixed"
   ],
   "note": "Idempotence and keeping the other characters are proved for ASCII text; false for text with non-ASCII bytes, which are encoded again: refuted with a witness, with the exact result for all text (C43_exact). No redundant blanks: proved for all text. The texts left as they are: exactly the ASCII ones with single blanks between words and no white space at the ends (C43_fixed)."
  },
  {
   "property": "C44",
   "status": "proved",
   "theorems": [
    "C44_unquote_quoted",
    "C44_unquote_plain",
    "C44_empty_kept"
   ],
   "note": "The two quotes around an empty text are kept; stated as a theorem."
  },
  {
   "property": "C45",
   "status": "proved",
   "theorems": [
    "C45_exact",
    "C45_symmetric",
    "C45_transitive",
    "C45_reflexive",
    "C45_equal_text",
    "C45_unequal_text"
   ],
   "note": "For every digest function."
  },
  {
   "property": "C46",
   "status": "proved",
   "theorems": [
    "C46_bind",
    "C46_target",
    "C46_quoted_value",
    "C46_list_values",
    "C46_constructed",
    "C46_unquoted_refuted"
   ],
   "note": "C46_unquoted_refuted shows that the quotes are needed."
  },
  {
   "property": "C47",
   "status": "proved",
   "theorems": [
    "C47_text",
    "C47_parens_suffice"
   ],
   "note": "The text format of nested stacks is taken from the tests of the project (MTree.v); topnot and notsep are arbitrary."
  },
  {
   "property": "C48",
   "status": "partial",
   "theorems": [
    "C48_refuted",
    "C48_exact",
    "C48_silent"
   ],
   "note": "False of the code: the errors of both parts are dropped. C48_exact gives the outcome for every text; C48_silent shows an instruction parsed without any of its permission-bind rules."
  },
  {
   "property": "C49",
   "status": "partial",
   "theorems": [
    "C49_groupattr_kept_refuted",
    "C49_exact"
   ],
   "note": "False of the code. The refutation and the exact behaviour (always userattr) are proved."
  },
  {
   "property": "C50",
   "status": "partial",
   "theorems": [
    "C29_keyword_refuted",
    "C29_exact"
   ],
   "note": "False of the code; refuted for every validator and equality. C29_exact: a bare keyword is always taken as a member."
  },
  {
   "property": "C51",
   "status": "proved",
   "theorems": [
    "C51_operation",
    "C51_list",
    "C51_push_exact",
    "C51_pop_exact"
   ],
   "note": "Members as values; C113 says what changes through the caller's own references do."
  },
  {
   "property": "C52",
   "status": "partial",
   "theorems": [
    "C52_keyword_refuted",
    "C52_exact",
    "C52_same_partial",
    "C52_keyword_exact"
   ],
   "note": "False of the code for groupattr pairs and role DNs. The exact keyword is proved."
  },
  {
   "property": "C53",
   "status": "partial",
   "theorems": [
    "C53_semicolon_refuted",
    "C53_exact"
   ],
   "note": "False of the code: the list always prints with commas."
  },
  {
   "property": "C54",
   "status": "partial",
   "theorems": [
    "C54_options_refuted",
    "C54_exact",
    "C54_list_exact",
    "C54_rule_exact"
   ],
   "note": "False of the code. C54_list_exact and C54_rule_exact say, for every value, whether it is accepted and which operations the result holds."
  },
  {
   "property": "C55",
   "status": "partial",
   "theorems": [
    "C55_printable_refuted",
    "C55_exact",
    "C55_exact_all"
   ],
   "note": "False of the code for attr# with nothing after the sign; C55_exact_all: for exactly those texts, with a DN and no filter."
  },
  {
   "property": "C56",
   "status": "partial",
   "theorems": [
    "C56_only_valid_refuted",
    "C56_partial",
    "C56_members_exact"
   ],
   "note": "False of the code: the push policy looks only at the keyword. Holds when only valid rules are pushed. C56_members_exact: the members are rules that were given, unchanged."
  },
  {
   "property": "C57",
   "status": "proved",
   "theorems": [
    "C57_bind",
    "C57_target",
    "C57_single_text",
    "C57_one_member_refuted",
    "C57_target_exact",
    "C57_bind_exact",
    "C57_other_exact"
   ],
   "note": "Multivalued means two or more members, as the documentation of SetQuoteStyle requires; C57_one_member_refuted shows that a one-member list loses its quotes."
  },
  {
   "property": "C58",
   "status": "proved",
   "theorems": [
    "C58_kept",
    "C58_accept",
    "C58_shown",
    "C58_target_kept"
   ],
   "note": "DN, attribute and level values are covered by C23, C26-C28 and C05-C08."
  },
  {
   "property": "C59",
   "status": "partial",
   "theorems": [
    "C59_refuted",
    "C59_exact",
    "C59_keywords"
   ],
   "note": "False of the code: only the keyword is looked at. Exact behaviour proved."
  },
  {
   "property": "C60",
   "status": "partial",
   "theorems": [
    "C60_refuted"
   ],
   "note": "False of the code; see C47 for where it holds."
  },
  {
   "property": "C61",
   "status": "partial",
   "theorems": [
    "C61_refuted",
    "C61_exact"
   ],
   "note": "False of the code: the error of the conversion is dropped and the rule returned unconverted."
  },
  {
   "property": "C62",
   "status": "partial",
   "theorems": [
    "C62_refuted",
    "C62_exact"
   ],
   "note": "False of the code: the value is never converted."
  },
  {
   "property": "C63",
   "status": "partial",
   "theorems": [
    "C63_partial",
    "C63_refuted",
    "C63_exact"
   ],
   "note": "False of the code: a second rule of one keyword and rules with unknown keywords are dropped silently. C63_exact gives the result for every text."
  },
  {
   "property": "C64",
   "status": "proved",
   "theorems": [
    "C64_exact"
   ],
   "note": "The grammar is arbitrary; a panic of the conversion is neither outcome."
  },
  {
   "property": "C65",
   "status": "partial",
   "theorems": [
    "C65_partial",
    "C65_refuted",
    "C65_PBR",
    "C65_parse",
    "C65_parse_refuted"
   ],
   "note": "False of the code for PBR(p, b), which accepts zero bind rules; C65_partial and C65_parse: rules built by Set or parsed, when the parser hands over AND, OR and NOT stacks only."
  },
  {
   "property": "C66",
   "status": "partial",
   "theorems": [
    "C66_partial",
    "C66_refuted",
    "C66_exact",
    "C66_instructions"
   ],
   "note": "False of the code for PermissionBindRules: a text that does not parse ends the call (C66_exact). Holds for Instructions."
  },
  {
   "property": "C67",
   "status": "partial",
   "theorems": [
    "C67_partial",
    "C67_refuted",
    "C67_distinct",
    "C67_ctor_exact",
    "C67_ctor_stop_exact",
    "C67_ctor_panics_exact",
    "C67_ctor_no_panic"
   ],
   "note": "False of the code: the constructor refuses texts, which Push parses. Proved for every argument list: the constructor gives the list that pushing the rules among its arguments gives (C67_ctor_exact), or, if go-stackage drops what follows a refused value, the rules in front of the first refused one (C67_ctor_stop_exact), and panics exactly at a text that makes the reader panic once the list has a member (C67_ctor_panics_exact)."
  },
  {
   "property": "C68",
   "status": "partial",
   "theorems": [
    "C68_partial",
    "C68_refuted",
    "C68_readable_partial",
    "C68_values_refuted"
   ],
   "note": "False of the code: a label with a double quote can contain the text of rules (C68_refuted), and so can the value of a target rule (C68_values_refuted). C68_readable_partial: for labels without quotation marks and values whose marks are closed, the text determines the label, the text of each target rule, and for each permission-bind rule its permission and its bind rules."
  },
  {
   "property": "C69",
   "status": "proved",
   "theorems": [
    "C69_parsed",
    "C69_nothing_lost"
   ],
   "note": "The grammar is arbitrary."
  },
  {
   "property": "C70",
   "status": "proved",
   "theorems": [
    "C70_invariant"
   ],
   "note": "On values. The same for instructions whose parts are shared with other variables: C133-C135."
  },
  {
   "property": "C71",
   "status": "proved",
   "theorems": [
    "C71_address",
    "C71_fqdn",
    "C71_auth_method",
    "C71_strength_factor",
    "C71_day_of_week",
    "C71_time_of_day",
    "C71_bind_dn",
    "C71_bind_dn_made",
    "C71_target_dn",
    "C71_target_dn_made",
    "C71_bind_dns",
    "C71_target_dns",
    "C71_attribute_type",
    "C71_attribute_types",
    "C71_object_identifier",
    "C71_object_identifiers",
    "C71_search_filter",
    "C71_filter_operations",
    "C71_scope",
    "C71_inheritance",
    "C71_uri"
   ],
   "note": "Lists are taken with their default quotation style."
  },
  {
   "property": "C72",
   "status": "partial",
   "theorems": [
    "C72_keyword_refuted",
    "C72_partial",
    "C72_exact"
   ],
   "note": "False of the code. A pair filled by Set on an uninitialised value reports userattr, but its rules carry no known keyword and its Ne has no operator. C72_partial: pairs with a keyword of their own. C72_exact: for pairs that are set, the keywords agree exactly when the pair's own keyword is userattr or groupattr."
  },
  {
   "property": "C73",
   "status": "proved",
   "theorems": [
    "C73_bind_tables",
    "C73_invalid",
    "C73_uri"
   ],
   "note": "LDAP URIs have the same kind of table; the keyword of their rules is C52."
  },
  {
   "property": "C74",
   "status": "partial",
   "theorems": [
    "C74_target_tables",
    "C74_filter_operations_refuted",
    "C74_filter_operations_partial",
    "C74_no_table"
   ],
   "note": "False of the code for the add=/delete= operations, whose table offers Ne. Proved for all other target values."
  },
  {
   "property": "C75",
   "status": "partial",
   "theorems": [
    "C75_bind_numbers_refuted",
    "C75_bind_numbers_exact",
    "C75_partial"
   ],
   "note": "False of the code. Numbers are cut to eight bits, so 257 finds Eq. C75_partial: everything but numbers outside 0..255."
  },
  {
   "property": "C76",
   "status": "proved",
   "theorems": [
    "C76_weekdays"
   ],
   "note": "Under the contract of the bit library (Shifty.v)."
  },
  {
   "property": "C77",
   "status": "proved",
   "theorems": [
    "C77_set",
    "C77_keeps",
    "C77_refused",
    "C77_text",
    "C77_zero"
   ],
   "note": ""
  },
  {
   "property": "C78",
   "status": "proved",
   "theorems": [
    "C78_PBR",
    "C78_text",
    "C78_marker",
    "C78_zero"
   ],
   "note": "A BindRule argument of PBR is not checked (C65_refuted)."
  },
  {
   "property": "C79",
   "status": "partial",
   "theorems": [
    "C79_lines",
    "C79_exact",
    "C79_partial",
    "C79_refuted"
   ],
   "note": "False of the code. A label may hold a newline, which String does not escape. Proved for instructions whose texts hold none."
  },
  {
   "property": "C80",
   "status": "proved",
   "theorems": [
    "C80_fold",
    "C80_words",
    "C80_not",
    "C80_paren",
    "C80_meaning",
    "C80_settings"
   ],
   "note": "Under the text format of go-stackage given in MTree.v."
  },
  {
   "property": "C81",
   "status": "partial",
   "theorems": [
    "C81_names",
    "C81_oids",
    "C81_attributes",
    "C81_filters",
    "C81_operations",
    "C81_target_rules",
    "C81_permission_bind_rules",
    "C81_instructions",
    "C81_members",
    "C81_partial",
    "C81_refuted",
    "C81_oid_others",
    "C81_others",
    "C81_foreign"
   ],
   "note": "False of the code. Instructions.Contains condenses white space in the text it looks for but not in the members, so an instruction whose text has runs of white space is not found. Proved exactly for the other lists."
  },
  {
   "property": "C82",
   "status": "partial",
   "theorems": [
    "C82_names",
    "C82_oids",
    "C82_filters",
    "C82_operations",
    "C82_operation_texts",
    "C82_target_rules",
    "C82_permission_bind_rules",
    "C82_instructions",
    "C82_instructions_accepted",
    "C82_attributes_accepted",
    "C82_refuted"
   ],
   "note": "False of the code for three lists. AttributeTypes accept what they already contain (C32). Texts pushed on AttributeFilterOperations are found only when the operation prints as written. Instructions with runs of white space are not found."
  },
  {
   "property": "C83",
   "status": "partial",
   "theorems": [
    "C83_attributes",
    "C83_filters",
    "C83_target_rules",
    "C83_permission_bind_rules",
    "C83_instructions",
    "C83_oids",
    "C83_bind_rules",
    "C83_index",
    "C83_names_partial",
    "C83_refuted",
    "C83_operations"
   ],
   "note": "False of the code for lists of distinguished names whose last member is an LDAP URI: Pop removes it and returns an invalid name. An OID list holding a keyword shows it as a zero OID."
  },
  {
   "property": "C84",
   "status": "proved",
   "theorems": [
    "C84_bind",
    "C84_target",
    "C84_permission",
    "C84_texts",
    "C84_history",
    "C84_accepted",
    "C84_permission_says",
    "C84_permission_accepts",
    "C84_bind_says",
    "C84_bind_accepts",
    "C84_bind_blanks",
    "C84_bind_unknown"
   ],
   "note": "The ANTLR parser is an arbitrary function of the text; a panic in it or in the conversion ends the call."
  },
  {
   "property": "C85",
   "status": "proved",
   "theorems": [
    "C85_separate",
    "C85_method"
   ],
   "note": "DayOfWeek and AttributeBindTypeOrValue are not in the pointer model."
  },
  {
   "property": "C86",
   "status": "partial",
   "theorems": [
    "C86_time_of_day",
    "C86_refuted",
    "C86_call",
    "C86_linked"
   ],
   "note": "False of the code for every type but TimeOfDay: the copy shares the pointer and the methods write through it. C86_call says exactly which variables a call changes; C86_linked that a copy and its original stay equal."
  },
  {
   "property": "C87",
   "status": "partial",
   "theorems": [
    "C87_refuted",
    "C87_shift",
    "C87_partial",
    "C87_kept_partial",
    "C87_new",
    "C87_set"
   ],
   "note": "False of the code: a rule holds the pointer of its permission and a list the pointers of its rules, so a later Shift or Set changes them and can make two members equal. True (C87_partial, C87_kept_partial) of programs that change no permission or rule made before the last Push."
  },
  {
   "property": "C88",
   "status": "partial",
   "theorems": [
    "C88_refuted",
    "C88_set",
    "C88_partial",
    "C88_kept_partial"
   ],
   "note": "False of the code: a list holds the pointers of its names, so a later Set changes them and can make two members equal. True of programs that call Set on no name made before the last Push."
  },
  {
   "property": "C89",
   "status": "partial",
   "theorems": [
    "C89_exact",
    "C89_panics",
    "C89_refuted",
    "C89_permissions",
    "C89_days",
    "C89_clock",
    "C89_names"
   ],
   "note": "False of the code: Compare compares hashes of texts, so values of different kinds with the same text are equal, values that print nothing differ from themselves, and an attribute binding with an empty value panics. C89_exact and C89_panics say exactly what it does; for permissions, days, clock times and names it decides equality of the meaning, unless SHA-1 collides."
  },
  {
   "property": "C90",
   "status": "proved",
   "theorems": [
    "C90_shape",
    "C90_given",
    "C90_equal"
   ],
   "note": ""
  },
  {
   "property": "C91",
   "status": "partial",
   "theorems": [
    "C91_bind",
    "C91_target",
    "C91_refuted",
    "C91_uninitialised",
    "C91_inheritance"
   ],
   "note": "False of the code for the cases in C91_refuted; C91_bind and C91_target prove it for the others."
  },
  {
   "property": "C92",
   "status": "partial",
   "theorems": [
    "C92_names",
    "C92_oids",
    "C92_attributes",
    "C92_refuted",
    "C92_operations"
   ],
   "note": "False of the code for attribute filter operations, lists of them and instructions: their Push parses a text, F does not. Proved for names, object identifiers and attribute types."
  },
  {
   "property": "C93",
   "status": "partial",
   "theorems": [
    "C93_valid",
    "C93_valid_more",
    "C93_zero",
    "C93_length_one",
    "C93_text",
    "C93_refuted",
    "C93_uri",
    "C93_text_more"
   ],
   "note": "False of the code for the security strength factor (the zero value is valid), the LDAP URI (Len is always 0) and a permission without rights (valid, length 0). The other types are proved."
  },
  {
   "property": "C94",
   "status": "proved",
   "theorems": [
    "C94_total",
    "C94_exact"
   ],
   "note": ""
  },
  {
   "property": "C95",
   "status": "proved",
   "theorems": [
    "C95_write",
    "C95_once",
    "C95_others"
   ],
   "note": "Stacks and rules are references in a heap (MGraph.v). C95_write: after z := x.Traverse(p...) and a changing call on z, both show the changed rule, the shape is kept, and any part that does not contain that rule is unchanged. C95_once: if the rule occurs once, the result is the tree with that one rule exchanged."
  },
  {
   "property": "C96",
   "status": "partial",
   "theorems": [
    "C96_partial",
    "C96_exact",
    "C96_refuted"
   ],
   "note": "False of the code. C96_refuted: x.Push(x) makes a stack a member of itself, and no finite tree shows it; go-aci's push policy does not look for this, and the model assumes go-stackage does not either. C96_partial: holds for every program that never pushes a stack into itself or into one of its members. C96_exact: after an accepted Push the receiver is finite exactly when the argument does not contain the receiver."
  },
  {
   "property": "C97",
   "status": "proved",
   "theorems": [
    "C97_index",
    "C97_push",
    "C97_pop",
    "C97_replace",
    "C97_frame",
    "C97_settings"
   ],
   "note": "C97_push also shows that the reference model and the tree model of Push agree. C97_frame is for every statement."
  },
  {
   "property": "C98",
   "status": "proved",
   "theorems": [
    "C98_days",
    "C98_days_one",
    "C98_names",
    "C98_targets",
    "C98_attr",
    "C98_attr_levels",
    "C98_attr_uri",
    "C98_attr_one",
    "C98_scope",
    "C98_filter",
    "C98_targetattr",
    "C98_oid",
    "C98_attrfilters",
    "C98_bare_filter",
    "C98_other",
    "C98_crash",
    "C98_no_target_crash"
   ],
   "note": "One theorem per group of keywords; the single-valued ones (ip, dns, timeofday, authmethod, ssf) are in C58. C98_names and C98_targets assume EqualFold is the modelled one. C98_targetattr: every value is read as the first (C31). C98_crash: the only crash is userattr or groupattr with a text that ends at its first closing bracket. C98_attrfilters is for the texts the package itself prints (see C33, C54); C98_oid leaves go-objectid open."
  },
  {
   "property": "C99",
   "status": "proved",
   "theorems": [
    "C99_text",
    "C99_zero",
    "C99_parse",
    "C99_parse_fails",
    "C99_label",
    "C99_label_set",
    "C99_nil_parts"
   ],
   "note": "The grammar is an arbitrary function, as everywhere."
  },
  {
   "property": "C100",
   "status": "partial",
   "theorems": [
    "C100_target_text",
    "C100_bind_text",
    "C100_target_list",
    "C100_operator",
    "C100_no_operator",
    "C100_keyword_refuted",
    "C100_keyword_exact",
    "C100_target_keyword",
    "C100_settings"
   ],
   "note": "False of the code in one case. C100_keyword_refuted: SetKeyword on a zero BindRule initialises it and loses the keyword. C100_keyword_exact: it is the only such case."
  },
  {
   "property": "C101",
   "status": "proved",
   "theorems": [
    "C101_uri_text",
    "C101_uri_other_text",
    "C101_uri_values",
    "C101_filter_order",
    "C101_push_operation",
    "C101_delimiter"
   ],
   "note": "C101_uri_text: a text that reads as a URI replaces the receiver and ends the call, later arguments are ignored."
  },
  {
   "property": "C102",
   "status": "partial",
   "theorems": [
    "C102_refuted",
    "C102_day",
    "C102_int"
   ],
   "note": "False of the code. C102_refuted: the Day constants start at 2, not 1, so Day(62) is Sunday to Thursday; as ints 62 and 65 are no days. C102_day: exactly the days whose constants make up the number (124 and 130). C102_int: an int from 1 to 7 is one day, any other is nothing."
  },
  {
   "property": "C103",
   "status": "partial",
   "theorems": [
    "C103_refuted",
    "C103_frame",
    "C103_kept_partial",
    "C103_follows",
    "C103_keyword",
    "C103_as_values",
    "C103_value"
   ],
   "note": "False of the code. C103_refuted: Push and Pop on a list change the text of the rules made from it, for every kind of list. C103_follows: until the rule's own methods are called it prints exactly what a rule made from the list at that moment prints. C103_keyword: list methods other than those of identifier lists never change the list's keyword, the hypothesis of C103_follows. C103_frame/C103_kept_partial: a statement that neither assigns the variable, nor calls the rule's methods, nor concerns the list the rule holds, leaves the rule alone."
  },
  {
   "property": "C104",
   "status": "partial",
   "theorems": [
    "C104_refuted",
    "C104_exact",
    "C104_partial"
   ],
   "note": "False of the code. C104_refuted: a style chosen for one rule shows in another rule made from the same list, as quotation marks inside quotation marks or none. C104_exact: the text of both rules afterwards. C104_partial: rules on other lists are left alone."
  },
  {
   "property": "C105",
   "status": "partial",
   "theorems": [
    "C105_refuted",
    "C105_partial",
    "C105_exact"
   ],
   "note": "False of the code, in five ways shown by C105_refuted. C105_partial: true in programs that make at most one rule from a list, never replace a rule's expression, and choose a style only for two or more values under a keyword the style concerns. C105_exact: the quotation marks follow from two settings, one of the list and one of the rule; the values are well quoted exactly when the two differ."
  },
  {
   "property": "C106",
   "status": "partial",
   "theorems": [
    "C106_refuted",
    "C106_follow",
    "C106_call",
    "C106_time_of_day",
    "C106_made",
    "C106_says"
   ],
   "note": "False of the code. C106_refuted: for addresses, host names, strength factors, search filters, names and inheritance. C106_follow: such a rule prints at every moment what the variable holds at that moment. C106_call: which rules a method call changes. C106_time_of_day: rules on times of day keep their text. Assumes that a go-stackage condition asks its value for the text when it is printed."
  },
  {
   "property": "C107",
   "status": "partial",
   "theorems": [
    "C107_refuted",
    "C107_exact",
    "C107_follows",
    "C107_frame",
    "C107_push",
    "C107_pop",
    "C107_nine",
    "C107_partial"
   ],
   "note": "False of the code. C107_refuted: SetKeyword on a rule already in the list, through its variable or through Index, makes two rules with one keyword. C107_exact: when that happens. C107_partial: true in programs that call SetKeyword only on rules that are in no list (C37 has it for lists whose rules are never changed). C107_push, C107_pop, C107_follows, C107_frame: what each statement does to what a list shows. C107_nine: never more than nine rules, in any program."
  },
  {
   "property": "C108",
   "status": "partial",
   "theorems": [
    "C108_refuted",
    "C108_frame",
    "C108_kept_partial",
    "C108_set",
    "C108_own_list",
    "C108_own"
   ],
   "note": "False of the code. C108_refuted: a rule changed after it was given to Set changes in the instruction, and the list TRs() gives is the instruction's own. C108_frame/C108_kept_partial: nothing else changes an instruction; in particular a TargetRules value given to Set can be changed freely afterwards. C108_set: Set adds the values its arguments have at that moment. C108_own: an instruction given its own list stays as it is."
  },
  {
   "property": "C109",
   "status": "proved",
   "theorems": [
    "C109_text",
    "C109_new",
    "C109_set",
    "C109_stays"
   ],
   "note": ""
  },
  {
   "property": "C110",
   "status": "proved",
   "theorems": [
    "C110_walk",
    "C110_methods",
    "C110_history",
    "C110_push"
   ],
   "note": "What IsNesting and Index do inside go-stackage is assumed as shown by the project's examples (bind_test.go:743-800)."
  },
  {
   "property": "C111",
   "status": "partial",
   "theorems": [
    "C111_refuted",
    "C111_category",
    "C111_category_set_partial",
    "C111_stack_keyword",
    "C111_id_partial",
    "C111_traverse",
    "C111_target",
    "C111_rule",
    "C111_rule_keyword",
    "C111_paren",
    "C111_zero",
    "C111_paren_zero"
   ],
   "note": "False of the code. C111_refuted: a rule that was initialised but has no keyword reports <invalid_bind_keyword>, not the zero string. C111_category: exactly what Category reports. C111_traverse: Traverse never returns nil; a path that leads nowhere gives the zero BindRules. C111_id_partial: ID is bind except for rules that were initialised without BR, whose identifier is go-stackage's. C111_stack_keyword: Keyword of a stack never is a keyword. C111_rule, C111_target: the rest, as documented."
  },
  {
   "property": "C112",
   "status": "partial",
   "theorems": [
    "C112_refuted",
    "C112_panics",
    "C112_text",
    "C112_valid",
    "C112_contexts_refuted"
   ],
   "note": "False of the code. C112_refuted/C112_panics: OID panics exactly when the keyword is not a TargetKeyword. C112_contexts_refuted: every target keyword is accepted and makes a valid identifier and a rule of that keyword. C112_text, C112_valid: the rest holds."
  },
  {
   "property": "C113",
   "status": "partial",
   "theorems": [
    "C113_refuted",
    "C113_frame",
    "C113_push",
    "C113_new",
    "C113_pop",
    "C113_index",
    "C113_member",
    "C113_list_push",
    "C113_list_pop",
    "C113_partial",
    "C113_list_partial"
   ],
   "note": "False of the code. C113_refuted: Set on a filter after it was pushed makes equal or incomplete members; Pop on an operation after it was pushed makes an empty or equal one. C113_member: Set on a filter read by Index changes the member. C113_partial, C113_list_partial: what is missing is exactly that: both invariants hold in every program that changes only values that are in no stack. C113_frame: what else can change a variable; the others: each call computes the value-level result of C51 and shows it through every variable that holds the stack."
  },
  {
   "property": "C114",
   "status": "partial",
   "theorems": [
    "C114_refuted",
    "C114_operation",
    "C114_list",
    "C114_frame"
   ],
   "note": "False of the code. C114_refuted: the rule of a list of operations changes with the list, its operations and their filters. C114_list: it always shows what the list is now. C114_operation: the rule of a single operation keeps its text, in full. C114_frame: when a rule keeps its text."
  },
  {
   "property": "C115",
   "status": "partial",
   "theorems": [
    "C115_refuted",
    "C115_exact",
    "C115_set",
    "C115_take"
   ],
   "note": "False of the code. C115_refuted: Set on the search filter given to AF or read by SearchFilter changes the attribute filter. C115_exact: the three ways it can change. C115_set: Set reaches every variable that holds the filter, but on a zero filter only its own variable. C115_take: what Set on the filter read does."
  },
  {
   "property": "C116",
   "status": "partial",
   "theorems": [
    "C116_refuted",
    "C116_value",
    "C116_name",
    "C116_keyword",
    "C116_piecemeal",
    "C116_piecemeal_refuted"
   ],
   "note": "False of the code. C116_refuted: a string given after the attribute replaces a value already set; AttributeValue and BindType arguments do not. C116_name, C116_value: exactly which argument becomes the attribute (the first string or AttributeType, valid or not) and which the value. C116_piecemeal: splitting over calls makes no difference for BindUAT and BindGAT. C116_piecemeal_refuted: without a keyword each Set discards what earlier ones assigned. C116_keyword: ABTV with any other keyword is the zero value."
  },
  {
   "property": "C117",
   "status": "proved",
   "theorems": [
    "C117_history",
    "C117_text",
    "C117_piecemeal"
   ],
   "note": "AttributeType arguments are assumed not to hold the empty name, which AT never makes."
  },
  {
   "property": "C118",
   "status": "partial",
   "theorems": [
    "C118_refuted",
    "C118_calls_exact",
    "C118_constructors",
    "C118_content_exact"
   ],
   "note": "False of the code. Addresses, names, clock times, URIs and instructions stop being zero at the first call of Set even if it stores nothing, days at the first call of Shift; a strength factor of 0 and an empty filter count as zero. Exact condition proved for each type over all histories."
  },
  {
   "property": "C119",
   "status": "partial",
   "theorems": [
    "C119_marks",
    "C119_auth",
    "C119_refuted",
    "C119_operations_exact",
    "C119_operators",
    "C119_levels"
   ],
   "note": "Proved for all enumerations but the operations of attribute filters, of which it is false: every number other than that of delete prints add."
  },
  {
   "property": "C120",
   "status": "partial",
   "theorems": [
    "C120_exact",
    "C120_built",
    "C120_fields",
    "C120_parsed",
    "C120_refuted"
   ],
   "note": "False of the code for parsed rules: Operator returns zero and target rules report themselves invalid until an operator is accepted by SetOperator (C120_parsed, C120_refuted). Proved for rules built by the constructors or from a variable (C120_built, C120_fields); C120_exact says what Operator tells after any history."
  },
  {
   "property": "C121",
   "status": "partial",
   "theorems": [
    "C121_refuted",
    "C121_exact",
    "C121_variables",
    "C121_members",
    "C121_partial",
    "C121_check",
    "C121_no_value"
   ],
   "note": "False of the code. The four names are structures around a pointer: Set on a copy of AnyDN changes AnyDN for the whole program, and with it every list that holds it and the texts the parser takes for names (C121_refuted). Proved: exactly what every copy prints after any program (C121_exact, C121_variables), that list members follow their alias (C121_members), which texts are accepted in terms of what the aliases print (C121_check), and that the claim holds for programs that never call Set with a text on a copy (C121_partial)."
  },
  {
   "property": "C122",
   "status": "partial",
   "theorems": [
    "C122_refuted",
    "C122_bind_partial",
    "C122_target_partial",
    "C122_exact",
    "C122_zero"
   ],
   "note": "False of the code. The table of add=/delete= operations passes although its Ne gives the zero rule, and so does the table of a pair filled by Set without a keyword, whose Ne gives a rule that is not valid (C122_refuted). Proved for the tables of all other values (C122_bind_partial, C122_target_partial), with the exact answers for those two (C122_exact); nil tables are zero and do not pass (C122_zero)."
  },
  {
   "property": "C123",
   "status": "partial",
   "theorems": [
    "C123_address",
    "C123_fqdn",
    "C123_auth_method",
    "C123_strength",
    "C123_time",
    "C123_days",
    "C123_names",
    "C123_names_pushed",
    "C123_name",
    "C123_attr",
    "C123_levels",
    "C123_uri_search",
    "C123_uri_plain",
    "C123_uri_value",
    "C123_fqdn_refuted",
    "C123_name_refuted",
    "C123_attr_refuted",
    "C123_no_level",
    "C123_names_exact",
    "C123_name_exact",
    "C123_attr_exact",
    "C123_levels_exact",
    "C123_uri_search_any",
    "C123_uri_plain_any",
    "C123_uri_value_exact"
   ],
   "note": "False of the code. Fully qualified domain names come back exactly when they are ASCII and at most 63 bytes in all (C123_fqdn); names without bars and question marks exactly when each is ASCII with single blanks, has three bytes and one scheme, is no alias and is not repeated up to case (C123_names_exact, C123_name_exact); attr#value pairs exactly when they are ASCII with single blanks and have neither white space nor a quotation mark at an end (C123_attr_exact); the same pairs with levels of inheritance, after any history, and URIs ending in a pair likewise (C123_levels_exact, C123_uri_value_exact). URIs with a scope, with or without a filter, come back whatever blanks and letters they hold, as long as they hold no bar (C123_uri_search_any, C123_uri_plain_any). Concrete texts: C123_name_refuted, C123_attr_refuted. Proved for addresses after any history, authentication methods, strengths, times, days after any history and inheritance levels after any history."
  },
  {
   "property": "C124",
   "status": "partial",
   "theorems": [
    "C124_scope",
    "C124_filter",
    "C124_attributes",
    "C124_attribute",
    "C124_oids",
    "C124_oid",
    "C124_names",
    "C124_names_pushed",
    "C124_name",
    "C124_attrfilters",
    "C124_attrfilter",
    "C124_refuted",
    "C124_filter_exact",
    "C124_names_exact",
    "C124_name_exact"
   ],
   "note": "False of the code. An attribute list comes back exactly when all its members are the same ASCII name (C124_attributes); operations only with a comma, or when there is one (C124_attrfilters); a filter exactly when it has three bytes, is ASCII with single blanks and has neither white space nor a quotation mark at an end (C124_filter_exact); names without bars exactly when each is ASCII with single blanks, has three bytes and one scheme, is no alias and is not repeated up to case (C124_names_exact, C124_name_exact). C124_refuted has concrete texts. Proved for scopes, single attributes and object identifiers."
  },
  {
   "property": "C125",
   "status": "partial",
   "theorems": [
    "C125_bind",
    "C125_target",
    "C125_stack",
    "C125_values",
    "C125_rule_of_values",
    "C125_target_list",
    "C125_assignment",
    "C125_all_stacks_refuted",
    "C125_values_told"
   ],
   "note": "False of the code for lists of target rules, which follow neither variable (C125_all_stacks_refuted, C125_target_list). Proved for bind rules, target rules, stacks of bind rules, lists of values and rules made from them. Instances made by reading text are not part of this model: the parser does not consult the variables."
  },
  {
   "property": "C126",
   "status": "partial",
   "theorems": [
    "C126_quoted",
    "C126_compared",
    "C126_counted",
    "C126_attribute",
    "C126_inheritance",
    "C126_days",
    "C126_number",
    "C126_values",
    "C126_refusals",
    "C126_push",
    "C126_push_exact",
    "C126_push_refuted",
    "C126_days_check",
    "C126_errorf",
    "C126_format",
    "C126_fits",
    "C126_error_format",
    "C126_rules",
    "C126_types",
    "C126_results",
    "C126_syntax",
    "C126_split",
    "C126_names",
    "C126_fixed",
    "C126_push_nokey",
    "C126_percent"
   ],
   "note": "False of the code. A zero value refused without a cause, and a target rule whose keyword is taken, are reported with '%!v(MISSING)' (C126_push_exact, C126_push_refuted); the check of a day list without days speaks of the time of day (C126_days_check). The other statements are proved: exact texts, quoting of arbitrary texts, and errors exactly for refusals (C126_refusals, C126_attribute, C126_inheritance, C126_days)."
  },
  {
   "property": "C127",
   "status": "partial",
   "theorems": [
    "C127_attribute",
    "C127_levels",
    "C127_panic_exact",
    "C127_parse_exact",
    "C127_fields_exact",
    "C127_set_exact",
    "C127_parse_keyword_exact",
    "C127_parse_whole_exact",
    "C127_shift_zero_exact",
    "C127_refuted"
   ],
   "note": "False of the code. Selecting anything of a zero Inheritance panics (C127_panic_exact); Parse makes a groupattr inheritance userattr (C127_parse_keyword_exact); the pair is shared with the value given to Inherit (C127_set_exact); a Shift while the attribute part is missing loses the levels (C127_shift_zero_exact); all four in C127_refuted. Proved: taking the Shift and Unshift calls out of a program changes no attribute part anywhere (C127_attribute), the levels follow the Shift and Unshift calls alone while there is an attribute part (C127_levels), and the exact effect of every other statement on every place."
  },
  {
   "property": "C128",
   "status": "partial",
   "theorems": [
    "C128_panic_exact",
    "C128_fields_exact",
    "C128_rules",
    "C128_ids",
    "C128_id_fields_exact",
    "C128_refuted"
   ],
   "note": "False of the code: the fields can be assigned after pushing, and are reached through a nil pointer on zero values (C128_refuted). Proved: exactly when a statement panics, the exact effect of every assignment on every rule and identifier wherever it is held, and that lists hold only admissible members for every program that assigns no zero permission, nil bind context, foreign keyword or nil notation."
  },
  {
   "property": "C129",
   "status": "proved",
   "theorems": [
    "C129_bind",
    "C129_refused",
    "C129_bit",
    "C129_new",
    "C129_target",
    "C129_target_refused"
   ],
   "note": "The bit is go-stackage's: that it refuses Push and Replace is taken from the project's examples, that it refuses Pop is assumed (MLock.v)."
  },
  {
   "property": "C130",
   "status": "partial",
   "theorems": [
    "C130_partial",
    "C130_refuted",
    "C130_target_partial",
    "C130_target_refuted"
   ],
   "note": "False of the code: the rules in the list, and lists inside it, are shared and do not carry the bit (C130_refuted, C130_target_refuted). Proved: the text stays if nothing the list leads to is changed, that is if every list it leads to is read-only (or not asked to change) and no method is called on a rule it leads to (C130_partial, C130_target_partial)."
  },
  {
   "property": "C131",
   "status": "proved",
   "theorems": [
    "C131_set",
    "C131_writable"
   ],
   "note": ""
  },
  {
   "property": "C132",
   "status": "proved",
   "theorems": [
    "C132_frame",
    "C132_program",
    "C132_parse",
    "C132_apart"
   ],
   "note": "Bind and target rules that share lists of values are in C103-C105 (MShare.v), attribute filters in C113-C115 (MFShare.v)."
  },
  {
   "property": "C133",
   "status": "partial",
   "theorems": [
    "C133_new",
    "C133_partial",
    "C133_refuted"
   ],
   "note": "False of the code: Push compares, later changes are not compared (C133_refuted). Proved: it holds from the making of the list through every program that changes the members through the list only, by Push and Pop (C133_new, C133_partial)."
  },
  {
   "property": "C134",
   "status": "partial",
   "theorems": [
    "C134_new",
    "C134_partial",
    "C134_refuted"
   ],
   "note": "False of the code: two rules can be made to print the same text after they were pushed (C134_refuted). Proved: it holds from the making of the list or instruction, by a constructor or by Parse, through every program that does not change the members or their parts (C134_new, C134_partial). That the members stay valid holds for every program (C136)."
  },
  {
   "property": "C135",
   "status": "proved",
   "theorems": [
    "C135_set",
    "C135_args",
    "C135_zero",
    "C135_push"
   ],
   "note": ""
  },
  {
   "property": "C136",
   "status": "proved",
   "theorems": [
    "C136_valid",
    "C136_instruction"
   ],
   "note": "Valid asks only that both parts are there; a rule with a permission of no rights stays valid, too."
  },
  {
   "property": "C137",
   "status": "proved",
   "theorems": [
    "C137_perm_new",
    "C137_perm_call",
    "C137_rule",
    "C137_target",
    "C137_new_rules",
    "C137_stack_new",
    "C137_stack_push",
    "C137_stack_other",
    "C137_stack_endless",
    "C137_stack_pop",
    "C137_stack_index",
    "C137_stack_replace",
    "C137_stack_settings",
    "C137_pbr_new",
    "C137_pbr_set",
    "C137_pbrs_new",
    "C137_pbrs_push",
    "C137_pbrs_pop",
    "C137_pbrs_index",
    "C137_trs_new",
    "C137_trs",
    "C137_fields",
    "C137_inss_push",
    "C137_inss_pop",
    "C137_inss_index",
    "C137_copy",
    "C137_shows",
    "C137_shows_list"
   ],
   "note": "Instruction.Set and Instructions.Push are in C135, Parse in C132."
  },
  {
   "property": "C138",
   "status": "proved",
   "theorems": [
    "C138_alone",
    "C138_ends",
    "C138_schedules",
    "C138_own",
    "C138_shared_refuted"
   ],
   "note": "Statements are executed one at a time; goroutines that change no common object have no data race, so this is no loss under Go's memory model. C138_shared_refuted: without the condition on common objects the result depends on the schedule. Package-level variables are not in MWhole.v (AllDN and the like: C121; RulePadding, StackPadding: C125)."
  },
  {
   "property": "C139",
   "status": "partial",
   "theorems": [
    "C139_refuted",
    "C139_lost_refuted",
    "C139_exact",
    "C139_members",
    "C139_partial"
   ],
   "note": "False of the code: the constructor passes its arguments to the stack, which refuses texts that Push would parse (C139_refuted), and may drop what follows (C139_lost_refuted). C139_exact says what the list holds for every list of arguments; C139_partial proves the claim for non-empty operations with different texts."
  },
  {
   "property": "C140",
   "status": "proved",
   "theorems": [
    "C140_alone",
    "C140_schedules",
    "C140_shared_refuted"
   ],
   "note": "Statements are atomic: the condition excludes data races. For every type given by an `obj` of MHeap.v. C140_shared_refuted: without the condition the result depends on the schedule."
  },
  {
   "property": "C141",
   "status": "proved",
   "theorems": [
    "C141_alone",
    "C141_schedules",
    "C141_shared_refuted"
   ],
   "note": "Statements are atomic: the condition excludes data races. C141_shared_refuted: having rules of their own is not enough, because SetQuoteStyle writes into the common list."
  },
  {
   "property": "C142",
   "status": "proved",
   "theorems": [
    "C142_alone",
    "C142_schedules",
    "C142_shared_refuted"
   ],
   "note": "Statements are atomic: the condition excludes data races. C142_shared_refuted: having operations of their own is not enough, because Set on a common filter changes both operations."
  },
  {
   "property": "C143",
   "status": "partial",
   "theorems": [
    "C143_identifiers",
    "C143_constructor",
    "C143_changes_refuted",
    "C143_values",
    "C143_refuted"
   ],
   "note": "False of the code: pushing the other keyword on an empty list of identifiers changes its kind (C143_changes_refuted), a list of attribute types made for a URI has the kind <uri_search_attributes> but the keyword targetfilter, and attribute types have neither (C143_refuted). C143_identifiers and C143_values prove the rest; C143_constructor proves that nothing but that push changes the kind."
  },
  {
   "property": "C144",
   "status": "partial",
   "theorems": [
    "C144_exact",
    "C144_in_turn",
    "C144_reached",
    "C144_refuted",
    "C144_returns"
   ],
   "note": "False of the code: String takes the presentation policy off while it prints, and another call can put it back meanwhile, so that the word add= or delete= is printed more than once (C144_refuted). C144_exact says what a text can be: with n calls in all the word comes 1 to 2^(n-1) times. C144_reached: the bound is reached for every n. C144_in_turn: goroutines that are never in the method together get the right text. C144_returns: every call returns, under every schedule. Statements are atomic."
  },
  {
   "property": "C145",
   "status": "proved",
   "theorems": [
    "C145_read",
    "C145_clock",
    "C145_ssf",
    "C145_auth",
    "C145_scope"
   ],
   "note": "For ASCII texts. The two marks need not be the same character, and one of them may be missing; a value of one character keeps a single mark."
  },
  {
   "property": "C146",
   "status": "partial",
   "theorems": [
    "C146_nothing_lost",
    "C146_by_turns",
    "C146_exact",
    "C146_reached",
    "C146_refuted",
    "C146_alone",
    "C146_returns",
    "C146_kinds",
    "C146_names",
    "C146_filters"
   ],
   "note": "False of the code. Between the look through the list and the append another goroutine can push the same value (C146_refuted). A list has at most as many copies as goroutines push the value (C146_exact), every number up to that is possible (C146_reached), nothing admitted is lost (C146_nothing_lost), and goroutines that take turns make no copies (C146_by_turns). go-stackage is assumed to ask the policy before it appends and to append in one step."
  },
  {
   "property": "C147",
   "status": "partial",
   "theorems": [
    "C147_values",
    "C147_by_turns",
    "C147_exact",
    "C147_kept",
    "C147_named",
    "C147_reached",
    "C147_refuted",
    "C147_alone",
    "C147_made",
    "C147_returns"
   ],
   "note": "False of the code. Two goroutines that both find no label write one after the other, and on a zero variable a goroutine can put a new instruction in the place of one that has a label (C147_refuted). For an instruction made by ACI: at most as many changes as goroutines give a label (C147_exact, reached: C147_reached), a label never goes away (C147_kept), one that is there at the start stays under every schedule (C147_named). Goroutines that take turns: it stays (C147_by_turns). Zero variable: at most one new instruction per goroutine (C147_made)."
  },
  {
   "property": "C148",
   "status": "proved",
   "theorems": [
    "C148_never",
    "C148_kept",
    "C148_disposition",
    "C148_days",
    "C148_levels",
    "C148_text",
    "C148_returns"
   ],
   "note": "Under the assumption, stated in MWord.v, that a Shift or Unshift of the bit library is one read and one write of the bits."
  },
  {
   "property": "C149",
   "status": "partial",
   "theorems": [
    "C149_by_turns",
    "C149_alone",
    "C149_settled",
    "C149_exact",
    "C149_refuted",
    "C148_returns",
    "C149_days",
    "C149_levels",
    "C149_days_refuted"
   ],
   "note": "False of the code. Two goroutines that give a right each can lose one of them, and a right taken can come back (C149_refuted). Goroutines that give one argument each: what is left is the start and the rights of some of the calls, at least one, and every choice is reached (C149_exact). Goroutines whose calls of the bit library take turns: nothing is lost and the result is that of an order of all calls (C149_by_turns); one goroutine: that of its calls (C149_alone). From a moment on without a call under way, a right that no call still takes stays (C149_settled)."
  },
  {
   "property": "C150",
   "status": "partial",
   "theorems": [
    "C150_exact",
    "C150_still",
    "C150_one_change",
    "C150_refuted",
    "C148_returns"
   ],
   "note": "False of the code: String reads the bits once as a number and then once more for each bit, so it can show a set that the permission never held, or no right though one is always held (C150_refuted). Exactly what it shows (C150_exact); right if nothing changes meanwhile (C150_still) or only one right does (C150_one_change)."
  },
  {
   "property": "C151",
   "status": "proved",
   "theorems": [
    "C151_text",
    "C151_no_panic",
    "C151_grows",
    "C151_final",
    "C151_returns"
   ],
   "note": "The header of the slice is read and written as a whole, and the copy of append is one step (MSlice.v)."
  },
  {
   "property": "C152",
   "status": "partial",
   "theorems": [
    "C152_given",
    "C152_no_panic",
    "C152_by_turns",
    "C152_refuted",
    "C152_text_refuted"
   ],
   "note": "False of the code: an address can be there twice, an address can be lost, String can panic (C152_refuted), and String can return a text that was not that of the list at any moment (C152_text_refuted). Under every schedule the list and the texts have no address but those of the start and those given (C152_given), and String does not panic unless the list gets shorter (C152_no_panic). Goroutines that are in Set one at a time: the list is what an order of all calls makes of it, and texts are right (C152_by_turns)."
  },
  {
   "property": "C153",
   "status": "proved",
   "theorems": [
    "C153_text",
    "C153_valid",
    "C153_no_panic",
    "C153_grows",
    "C153_final",
    "C153_returns"
   ],
   "note": "The header of the slice is read and written as a whole, and the copy of append is one step (MLabel.v)."
  },
  {
   "property": "C154",
   "status": "partial",
   "theorems": [
    "C154_parts",
    "C154_given",
    "C154_no_panic",
    "C154_by_turns",
    "C154_part_refuted",
    "C154_long_refuted",
    "C154_refuted"
   ],
   "note": "False of the code: labels of two calls can be mixed, a label can be lost, String can panic (C154_refuted); with one goroutine that calls Set a reader can see a part of a call (C154_part_refuted) and can return sixteen labels, too many for a valid name (C154_long_refuted). One goroutine that calls Set: the name is at every moment a number of whole calls and a beginning of the next (C154_parts). Under every schedule the name and the texts have no label but those of the start and valid ones given (C154_given), and String does not panic unless the name gets shorter (C154_no_panic). Goroutines that are in Set one at a time: the name is what an order of all calls makes of it (C154_by_turns)."
  },
  {
   "property": "C155",
   "status": "proved",
   "theorems": [
    "C155_kept",
    "C155_made",
    "C155_returns"
   ],
   "note": "Putting the arguments of one call in is one step here; what calls on one value do to each other is C148 to C154."
  },
  {
   "property": "C156",
   "status": "partial",
   "theorems": [
    "C156_ends",
    "C156_by_turns",
    "C156_types",
    "C156_lost",
    "C156_strength_lost",
    "C156_refuted",
    "C156_time_shown"
   ],
   "note": "False of the code: for every type and any two calls there is a schedule after which a call that had returned is gone (C156_lost), so that no order of the calls gives the result (C156_refuted); for strengths even a call that began when the variable was no longer nil (C156_strength_lost). Proved: under every schedule the last calls of each goroutine are there, in their order, and not none (C156_ends); goroutines that take turns lose nothing (C156_by_turns). C156_types ties the model to the Set of each of the ten types. Of a TimeOfDay every call is shown when it returns (C156_time_shown)."
  },
  {
   "property": "C157",
   "status": "proved",
   "theorems": [
    "C157_kept",
    "C157_given",
    "C157_text",
    "C157_no_panic",
    "C157_settled",
    "C157_returns"
   ],
   "note": "A part is read and written as a whole here; the pointer in the variable stays (C155)."
  },
  {
   "property": "C158",
   "status": "partial",
   "theorems": [
    "C158_by_turns",
    "C158_exact",
    "C158_lost",
    "C158_refuted"
   ],
   "note": "False of the code: for any two names there is a schedule in which the first, shown when its Set has returned, is replaced by the second (C158_lost, C158_refuted). Proved: only a goroutine that found the name unset before can replace it (C158_exact); goroutines of which no two are between test and write of an argument at the same time get what some order of all arguments makes (C158_by_turns)."
  },
  {
   "property": "C159",
   "status": "proved",
   "theorems": [
    "C159_order",
    "C159_text",
    "C159_one_part",
    "C159_returns",
    "C159_alone"
   ],
   "note": "A part is read and written as a whole here; the pointer in the variable stays while the filter is not empty (C155)."
  },
  {
   "property": "C160",
   "status": "partial",
   "theorems": [
    "C160_torn",
    "C160_refuted"
   ],
   "note": "False of the code: with one goroutine that replaces both parts, String can return the old attribute type with the new search filter, a pair the filter never was, whatever the parts (C160_torn, C160_refuted). What holds is C159."
  },
  {
   "property": "C161",
   "status": "proved",
   "theorems": [
    "C161_kept",
    "C161_given",
    "C161_text",
    "C161_sole",
    "C161_returns"
   ],
   "note": "The permission and the bind rule are read and written as wholes; the values given are not changed meanwhile; a text on which the parser panics is taken as refused."
  },
  {
   "property": "C162",
   "status": "partial",
   "theorems": [
    "C162_by_turns",
    "C162_torn",
    "C162_exact",
    "C162_refuted"
   ],
   "note": "False of the code: String beside one Set can return the old permission with the new bind rule or the reverse, whatever the rules (C162_torn); two goroutines can leave the permission of one text with the bind rule of the other for good, and exactly the four combinations come about (C162_exact, C162_refuted). Proved for goroutines of which no two are in a call at the same time (C162_by_turns)."
  },
  {
   "property": "C163",
   "status": "proved",
   "theorems": [
    "C163_parts",
    "C163_text",
    "C163_named",
    "C163_sole",
    "C163_returns",
    "C163_moments",
    "C163_attributes"
   ],
   "note": "The structure is copied and overwritten word by word in the order of its declaration; a push to the list of attributes, and printing its members, is one step; the values given are not changed meanwhile."
  },
  {
   "property": "C164",
   "status": "partial",
   "theorems": [
    "C164_by_turns",
    "C164_torn",
    "C164_exact",
    "C164_refuted"
   ],
   "note": "False of the code: String beside one Set can return the text of any mixture of the parts of the old and the new URI, whatever they are (C164_torn); two goroutines leave exactly the mixtures of their two URIs (C164_exact, C164_refuted). Proved for any calls that do not overlap: they have the effects and results of an order of the calls (C164_by_turns)."
  },
  {
   "property": "C165",
   "status": "proved",
   "theorems": [
    "C165_given",
    "C165_kept",
    "C165_moment",
    "C165_returns",
    "C165_sole"
   ],
   "note": "The pointer of the variable is read and written as a whole; the bytes of an object are read and written one at a time; memory is sequentially consistent."
  },
  {
   "property": "C166",
   "status": "partial",
   "theorems": [
    "C166_last",
    "C166_exact",
    "C166_refuted",
    "C166_sole"
   ],
   "note": "False of the code: Set assigns the new time and then reads the variable again for its result, so it can return the time that another goroutine set meanwhile (C166_refuted). Proved: exactly the outcomes of two calls (C166_exact); of any number of goroutines that call Set once each, one gets its own time, the one left, and the others get times that were given (C166_last); a goroutine that alone calls Set gets its own times (C166_sole)."
  },
  {
   "property": "C167",
   "status": "proved",
   "theorems": [
    "C167_safe",
    "C167_given",
    "C167_shared",
    "C167_moment",
    "C167_returns",
    "C167_sole",
    "C167_unset"
   ],
   "note": "Pointers are read and written as a whole; a goroutine that panics takes no more steps and the others go on; memory is sequentially consistent."
  },
  {
   "property": "C168",
   "status": "partial",
   "theorems": [
    "C168_exact",
    "C168_unset",
    "C168_refuted"
   ],
   "note": "False of the code (C168_refuted): String asks whether there is a factor and then reads the pointer again, so that Set(nil) in between makes it panic; the first Set stores the factor 1 for a moment before it stores the one given. Proved: exactly when String beside a goroutine that calls Set can panic (C168_exact); exactly what String beside the first Set can return, and when it can panic (C168_unset)."
  },
  {
   "property": "C169",
   "status": "proved",
   "theorems": [
    "C169_safe",
    "C169_parts",
    "C169_string",
    "C169_rule",
    "C169_returns",
    "C169_sole",
    "C169_shared",
    "C169_unset",
    "C169_same"
   ],
   "note": "The pointer of the variable, the keyword and the pointer of the text are each read and written as a whole; of a rule the reading of the keyword and of the text are kept; memory is sequentially consistent."
  },
  {
   "property": "C170",
   "status": "partial",
   "theorems": [
    "C170_exact",
    "C170_rule",
    "C170_lost",
    "C170_refuted"
   ],
   "note": "False of the code (C170_refuted): Set writes the keyword and the text one after the other. Proved: two calls of Set leave exactly the four mixtures of their keywords and texts (C170_exact); a rule made by Eq beside one call of Set is exactly one of the four mixtures of the old and the new name (C170_rule); on a variable that was never set, a call of Set without a text can take away a name that another goroutine has set and printed (C170_lost)."
  },
  {
   "property": "C171",
   "status": "proved",
   "theorems": [
    "C171_parts",
    "C171_length",
    "C171_sole",
    "C171_returns"
   ],
   "note": "The variable was made by Filter, so that no call writes its pointer; the bytes behind those of a text in memory can be read; memory is sequentially consistent."
  },
  {
   "property": "C172",
   "status": "partial",
   "theorems": [
    "C172_exact",
    "C172_two",
    "C172_beyond",
    "C172_refuted"
   ],
   "note": "False of the code, whichever word is written and read first (C172_refuted): a string is two words. Proved: exactly what String beside one call of Set can return, for each order of the words (C172_exact); exactly what two calls of Set can leave (C172_two); String can return any number of bytes of the memory behind a text (C172_beyond)."
  },
  {
   "property": "C173",
   "status": "proved",
   "theorems": [
    "C173_grow",
    "C173_given",
    "C173_moments",
    "C173_begun",
    "C173_sole",
    "C173_returns",
    "C173_label"
   ],
   "note": "The variable holds an instruction made by ACI; a push and the printing of a stack are one step each; strings are read and written as a whole; memory is sequentially consistent."
  },
  {
   "property": "C174",
   "status": "partial",
   "theorems": [
    "C174_exact",
    "C174_order",
    "C174_refuted"
   ],
   "note": "False of the code (C174_refuted): a call of Set with a target rule and a permission can be printed as the permission without the target. Proved: exactly what String beside one call of Set with any arguments prints (C174_exact); given first the permission-bind rules and then the target rules, an instruction is printed as it is after some of them (C174_order)."
  },
  {
   "property": "C175",
   "status": "proved",
   "theorems": [
    "C175_days",
    "C175_days_still",
    "C175_days_one",
    "C175_days_rule",
    "C175_levels",
    "C175_levels_still",
    "C175_levels_one",
    "C175_days_back",
    "C175_levels_back"
   ],
   "note": "Each call of Positive of the bit library is one read, Shift and Unshift are one read and one write each; a copy of a value of the library shares its bits, as time.go and levels.go rely on; memory is sequentially consistent. shifty_ok is the description of the library (Shifty.v)."
  },
  {
   "property": "C176",
   "status": "partial",
   "theorems": [
    "C176_days_exact",
    "C176_rule_exact",
    "C176_levels_exact",
    "C176_refuted",
    "C176_back_refuted"
   ],
   "note": "False of the code (C176_refuted): days that were never in a list together are printed together; a list that is never empty is printed as an invalid one; an inheritance that always has a level is printed without any. Proved: exactly what is printed (C176_days_exact, C176_levels_exact)."
  },
  {
   "property": "C177",
   "status": "proved",
   "theorems": [
    "C177_rules",
    "C177_texts",
    "C177_no_waiting"
   ],
   "note": "parse_together (SParseGo.v) is the statement for one type. What texts say is in MView.v and the files it uses (C84). Values that were stored are not changed meanwhile: only Parse and methods that read are called. Memory is sequentially consistent."
  },
  {
   "property": "C178",
   "status": "partial",
   "theorems": [
    "C178_words",
    "C178_userattr",
    "C178_end",
    "C178_refuted"
   ],
   "note": "False of the code (C178_refuted): the variable is two words, a keyword and a pointer, and a copy can have the keyword of one value and the pair of another. Proved: which words and which text a copy has (C178_words), that it is whole if the variable has the keyword userattr at the start (C178_userattr), and that the variable is whole when all calls have returned (C178_end)."
  },
  {
   "property": "C179",
   "status": "proved",
   "theorems": [
    "C179_order",
    "C179_uri",
    "C179_filter",
    "C179_in_time"
   ],
   "note": "Putting all arguments of one call of Set in is one step, as in MFirst.v; memory is sequentially consistent. C179_order is for any type described by ftype, C179_uri for LDAPURI, where its hypothesis always holds, C179_filter for AttributeFilter with arguments that are something. C179_in_time: the order keeps time, a call that has returned comes before one that begins later."
  },
  {
   "property": "C180",
   "status": "partial",
   "theorems": [
    "C180_lost",
    "C180_refuted"
   ],
   "note": "False of the code (C180_refuted, C180_lost): a value that Parse stores after the test of Set and before its store is lost. Proved for variables that are set (C179)."
  }
 ]
}
