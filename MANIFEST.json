{
 "claims": [
  {
   "property": "C01",
   "status": "proved",
   "theorems": [
    "C01_binary_roundtrip",
    "C01_every_plain_graph_shows",
    "C01_shows_unique",
    "C01_result_same",
    "C01_nul_needed",
    "C01_leading_01_needed",
    "C01_depth_needed"
   ],
   "note": "Round trip for every graph whose contents are NUL-free, do not start with byte 01 and whose levels are below 2^21 (as the statement says); three theorems show that each restriction is needed."
  },
  {
   "property": "C02",
   "status": "partial",
   "theorems": [
    "C02_varint_roundtrip_partial",
    "C02_varint_exact",
    "C02_varint_refuted",
    "C02_reader_full_range",
    "C02_writer_form",
    "C02_out_of_range_rejected",
    "C02_shortest_form"
   ],
   "note": "The full range claim is refuted (C02_varint_refuted: |0xff instead of &0xff in binary.go's four-byte case); proved for i<2^21, with the exact set of surviving integers, the reader correct on the whole range, and the shortest-form claim."
  },
  {
   "property": "C03",
   "status": "partial",
   "theorems": [
    "C03_truncated_text_diverges",
    "C03_returns_refuted",
    "C03_returns_partial",
    "C03_fuel_irrelevant"
   ],
   "note": "Refuted: a truncated text node is read forever (for all fuel). Proved: any bytes followed by five zero bytes are read in linear time; truncations inside a content always diverge."
  },
  {
   "property": "C04",
   "status": "proved",
   "theorems": [
    "C04_header",
    "C04_bad_header_always_nil"
   ],
   "note": "nil iff the header is not 01 'G' 00 (given that the call returns); bad headers always return nil."
  },
  {
   "property": "C05",
   "status": "proved",
   "theorems": [
    "C05_consumes_exactly",
    "C05_sequence",
    "C05_writer_is_format"
   ],
   "note": "Exact consumption for one object followed by arbitrary bytes, and sequences of objects."
  },
  {
   "property": "C06",
   "status": "partial",
   "theorems": [
    "C06_binary_node_last_partial",
    "C06_binary_node_refuted"
   ],
   "note": "Refuted when nodes follow a binary node (its terminating 00 is taken for an empty chunk); proved for a binary node that ends the stream."
  },
  {
   "property": "C07",
   "status": "partial",
   "theorems": [
    "C07_error_in_text_accepted",
    "C07_io_error_refuted",
    "C07_error_reads_as_zeros_partial"
   ],
   "note": "Refuted: an I/O error inside a text node completes it. Proved: a failing reader is equivalent to one delivering zeros."
  },
  {
   "property": "C08",
   "status": "proved",
   "theorems": [
    "C08_add_get",
    "C08_scan",
    "C08_append_only",
    "C08_next_advances",
    "C08_memory",
    "C08_memory_get_error"
   ],
   "note": "Any history on a file-backed log; also iteration, append-only, bounded next position. For the in-memory log positions index Bytes(); Get on it always returns an error (stated separately)."
  },
  {
   "property": "C09",
   "status": "partial",
   "theorems": [
    "C09_get_binary_partial",
    "C09_next_position_refuted"
   ],
   "note": "The bytes are exactly the stored ones (proved); the second result is the length, not the documented next position (refuted)."
  },
  {
   "property": "C10",
   "status": "proved",
   "theorems": [
    "C10_crash_safe",
    "C10_sync_needed",
    "C10_scan_misses_after_crash"
   ],
   "note": "Every synced object survives any crash; later objects are found at their positions; sync is shown necessary; sequential scanning across a torn record is shown to miss later objects (stated separately)."
  },
  {
   "property": "C11",
   "status": "partial",
   "theorems": [
    "C11_torn_record_partial",
    "C11_torn_hangs_refuted",
    "C11_torn_wrong_graph_refuted"
   ],
   "note": "Refuted: a cut inside a content hangs Get, a cut between nodes returns a wrong graph with a nil error. Proved: exact three-way classification of every cut of every record."
  },
  {
   "property": "C12",
   "status": "proved",
   "theorems": [
    "C12_tree_of_events",
    "C12_nested_all_kept",
    "C12_jump_loses_item_refuted",
    "C12_negative_level_refuted",
    "C12_preorder_rebuilds"
   ],
   "note": "For all call sequences with non-negative levels; item loss when levels jump and the panic on negative levels are stated separately."
  },
  {
   "property": "C13",
   "status": "proved",
   "theorems": [
    "C13_bytes_in_order",
    "C13_bytes_in_order_reader",
    "C13_limit_exact_refuted"
   ],
   "note": "For every input length and every sequence of Byte/UnreadByte that stays within 2048 bytes of the furthest position; the limit is exact (C13_limit_exact_refuted)."
  },
  {
   "property": "C14",
   "status": "partial",
   "theorems": [
    "C14_only_seen_part_partial",
    "C14_block_readers_partial",
    "C14_small_readers_partial",
    "C14_data_with_EOF_refuted",
    "C14_one_byte_at_a_time_refuted",
    "C14_short_first_read_refuted"
   ],
   "note": "False of the code in general: data returned together with an error is lost, a reader delivering one byte at a time is cut after 100 Reads, a first Read of 2048..4095 bytes is taken as the end (three _refuted witnesses). Proved for every reader: the result is that of FromString on the part of the data that is seen; and everything is seen of block readers and of small readers."
  },
  {
   "property": "C15",
   "status": "partial",
   "theorems": [
    "C15_4095",
    "C15_limit",
    "C15_name_partial",
    "C15_path_partial",
    "C15_long_names_never_return",
    "C15_any_length_refuted"
   ],
   "note": "NewPath of every name (letters and digits of any alphabet in UTF-8, underscore) up to 4095 bytes, and of every path of names, quoted strings and indexes up to 4094 bytes, returns exactly its elements (C15_name_partial, C15_4095, C15_path_partial). Refuted for length: on every ASCII name of 4096 bytes or more NewPath never returns (no fuel suffices), so 4095 is the limit (C15_limit). Ill-formed UTF-8 after a name ends it, see C92. Not covered: names of more than 4095 bytes beyond ASCII."
  },
  {
   "property": "C16",
   "status": "proved",
   "theorems": [
    "C16_FromReader_returns",
    "C16_count_faithful",
    "C16_linear",
    "C16_linear_short",
    "C16_linear_reader"
   ],
   "note": "Every byte string and every reader: the parser returns (no panic, no endless loop), and the number of operations it performs on the lexer and on the event handler (CostSpec.run_count) is at most 16516 per byte plus 70; at most 132 per byte plus 70 when no run of blanks reaches 2040 bytes (longer indentations do not fit in what the lexer can unread, and are read again). The refills of the buffer, one every 2048 bytes, and the reader's own time are not counted."
  },
  {
   "property": "C17",
   "status": "partial",
   "theorems": [
    "C17_nesting_partial",
    "C17_nesting_general",
    "C17_less_indented_refuted",
    "C17_nesting_reader"
   ],
   "note": "Proved for every document of plain/quoted scalars, comments and blocks whose lines are indented at least as much as the first; in general the document is cut at the first line indented less (C17_nesting_general, C17_less_indented_refuted)."
  },
  {
   "property": "C18",
   "status": "partial",
   "theorems": [
    "C18_text_round_trip_partial",
    "C18_prints_exists",
    "C18_backquote_refuted",
    "C18_backslash_refuted",
    "C18_escapes_refuted",
    "C18_top_level_blank_needed",
    "C18_Text_panics_refuted",
    "C18_Text_panics_CR_refuted"
   ],
   "note": "Round trip proved for every graph whose contents satisfy text_content (level <= 1020). The remaining contents allowed by the statement are refuted: leading backquote, lone backslash, backslash before a quote; Text() panics on a node containing only a quote or only CR. Neither proved nor refuted: a content that is a single # (the Example C18_ex_hash shows one that comes back) and levels beyond 1020."
  },
  {
   "property": "C19",
   "status": "partial",
   "theorems": [
    "C19_insert_partial",
    "C19_insert_refuted"
   ],
   "note": "Proved when the line after the inserted one is not indented more than it; refuted otherwise (a blank line inside nested content resets the nesting)."
  },
  {
   "property": "C20",
   "status": "proved",
   "theorems": [
    "C20_crlf",
    "C20_crlf_comment_refuted",
    "C20_crlf_quoted_refuted"
   ],
   "note": "For documents of plain scalars as stated, and also of blocks; with comments or quoted scalars of several lines it is refuted (C20_crlf_comment_refuted, C20_crlf_quoted_refuted)."
  },
  {
   "property": "C21",
   "status": "partial",
   "theorems": [
    "C21_all_scalars_partial",
    "C21_less_indented_refuted",
    "C21_after_comment_refuted"
   ],
   "note": "Proved when each line has a scalar and none is indented less than the first; each hypothesis is shown necessary by a refutation."
  },
  {
   "property": "C22",
   "status": "partial",
   "theorems": [
    "C22_block_partial",
    "C22_block_refuted"
   ],
   "note": "Proved when the line after the block is not indented; refuted for a nested block followed by its sibling."
  },
  {
   "property": "C23",
   "status": "proved",
   "theorems": [
    "C23_same_shape",
    "C23_documents",
    "C23_integers",
    "C23_printed_integers"
   ],
   "note": "Same shape for every text; exactly which scalars are typed for every document; integer exactness. Float parsing is an environment parameter."
  },
  {
   "property": "C24",
   "status": "partial",
   "theorems": [
    "C24_node_partial",
    "C24_node_or_new_partial",
    "C24_create_partial",
    "C24_node_set_partial",
    "C24_nil_receiver",
    "C24_node_refuted"
   ],
   "note": "Proved for graphs whose children exist and print (no nil child). Refuted in general: a nil child (Set with an index creates them) makes Node panic (C24_node_refuted)."
  },
  {
   "property": "C25",
   "status": "partial",
   "theorems": [
    "C25_delete_partial",
    "C25_deleted_unique",
    "C25_delete_at",
    "C25_delete_at_out_of_range",
    "C25_clear",
    "C25_delete_refuted",
    "C25_delete_prints_refuted"
   ],
   "note": "Delete proved for comparable contents, DeleteAt and Clear for all graphs. Delete by a []byte content panics when a child holds []byte, and a []byte child is not deleted by the equal string."
  },
  {
   "property": "C26",
   "status": "partial",
   "theorems": [
    "C26_equals_partial",
    "C26_equals_identity",
    "C26_reflexive",
    "C26_symmetric",
    "C26_transitive",
    "C26_equals_refuted",
    "C26_nil_child_refuted",
    "C26_nan_refuted"
   ],
   "note": "Equals is an equivalence and decides equality of contents/order/shape on comparable, non-NaN contents. Refuted for []byte contents (panic), nil children (panic), NaN."
  },
  {
   "property": "C27",
   "status": "partial",
   "theorems": [
    "C27_clone",
    "C27_independent_partial",
    "C27_contents_refuted"
   ],
   "note": "Faithful, made of new nodes, old nodes untouched: every finite graph (C27_clone). Independent under every later history of operations if no node of the graph has a graph as its content; such a content is shared (C27_contents_refuted). []byte contents are values in the model (Go shares the array behind them). Clone of a cyclic graph does not return."
  },
  {
   "property": "C28",
   "status": "partial",
   "theorems": [
    "C28_copy_partial",
    "C28_copy_refuted"
   ],
   "note": "Proved when no content of c is nil or a pointer to a graph. Refuted: a nil-content node is dropped with its subtree."
  },
  {
   "property": "C29",
   "status": "partial",
   "theorems": [
    "C29_substitute_partial",
    "C29_idempotent_partial",
    "C29_nil_child_refuted"
   ],
   "note": "Proved for graphs without nil nodes (idempotence even when v prints as s). With a nil child it panics."
  },
  {
   "property": "C30",
   "status": "partial",
   "theorems": [
    "C30_append_partial",
    "C30_replace_partial",
    "C30_merge_refuted",
    "C30_other_child_refuted"
   ],
   "note": "The code looks up by the first grandchild's content; proved where that does not matter, refuted otherwise (two equal children result; a source child disappears)."
  },
  {
   "property": "C31",
   "status": "partial",
   "theorems": [
    "C31_set_get_partial",
    "C31_set_get_graph_partial",
    "C31_set_partial",
    "C31_graph_value_refuted",
    "C31_nil_child_refuted",
    "C31_quoted_partial"
   ],
   "note": "Paths of names up to 4094 bytes, graphs without nil children, whether or not the path existed. Values that are neither nil nor graphs: exactly the claim. For a graph its subnodes are stored, for nil the node is emptied (C31_graph_value_refuted). A nil child left by an earlier Set makes Set panic (C31_nil_child_refuted). Names are words of letters and digits in UTF-8 (as the environment classifies runes), digits and underscores. C31_quoted_partial: the same with names in quotes, in Set and in Get (unmarked: not !i, !s, !a, !g)."
  },
  {
   "property": "C32",
   "status": "partial",
   "theorems": [
    "C32_others_partial",
    "C32_quoted_partial"
   ],
   "note": "Graphs of data (no nil children, no functions, objects or pointers as contents), paths of names up to 4094 bytes. C32_quoted_partial: the same with names in quotes. With a nil child Set panics (C31_nil_child_refuted)."
  },
  {
   "property": "C33",
   "status": "partial",
   "theorems": [
    "C33_compose_partial",
    "C33_compose_index_partial",
    "C33_found",
    "C33_missing",
    "C33_compose_all_partial"
   ],
   "note": "Paths of names and quoted names on graphs of data (C33_compose_partial); with indexes in both paths, in range or not, if no method of Graph has the name of the second element of a path (C33_compose_all_partial; see C34_method_refuted for that). C33_found and C33_missing say which node Get returns and when it is nil. With selectors: C69_compose_partial."
  },
  {
   "property": "C34",
   "status": "partial",
   "theorems": [
    "C34_safe_partial",
    "C34_nil_receiver",
    "C34_index_refuted",
    "C34_chain_partial",
    "C34_method_refuted"
   ],
   "note": "C34_safe_partial: paths of names and quoted names on graphs of data, and the nil receiver. C34_chain_partial: with indexes as well, Get returns, leaves the receiver as it was, and the result can be used, unless it is the node for an index beyond the end, on which Int64 panics (C34_index_refuted); provided the second element of the path is not the name of a method of Graph, because below such a node a name that is not found calls that method on a nil graph, and Get panics if the method does (C34_method_refuted). Selectors: C69_safe_partial. Indexes, selectors and groups with expressions: C86_get_partial. Arguments in the path have no theorem on safety."
  },
  {
   "property": "C35",
   "status": "partial",
   "theorems": [
    "C35_set_index_partial",
    "C35_set_get_index_partial",
    "C35_others_partial",
    "C35_rest_ignored",
    "C35_rest_refuted",
    "C35_usable_refuted",
    "C35_quoted_partial"
   ],
   "note": "After names and a constant index v is the i-th subnode and the rest is kept. Two parts of the claim are false: elements after the index are ignored (C35_rest_ignored for every path, C35_rest_refuted) and storing beyond the end leaves nil children on which Get panics (C35_usable_refuted). C35_quoted_partial: after names in quotes too."
  },
  {
   "property": "C36",
   "status": "proved",
   "theorems": [
    "C36_int64",
    "C36_numeral",
    "C36_numeral_unique",
    "C36_scalar",
    "C36_integer_contents",
    "C36_uint64_refuted"
   ],
   "note": "Int64/Number/Scalar/ThisScalar on every text; numerals are specified independently of the parser. uint64 contents above 2^63-1 wrap (C36_uint64_refuted, outside the claim). GetInt64 is covered under C38."
  },
  {
   "property": "C37",
   "status": "partial",
   "theorems": [
    "C37_scalar_partial",
    "C37_node_partial",
    "C37_scalar_refuted"
   ],
   "note": "Returns for every content that does not print as blanks only; on every blank text it panics (C37_scalar_refuted)."
  },
  {
   "property": "C38",
   "status": "partial",
   "theorems": [
    "C38_string_partial",
    "C38_int64_partial",
    "C38_float64_partial",
    "C38_bool_partial",
    "C38_bytes_partial",
    "C38_empty_path",
    "C38_bool_default",
    "C38_bool_number_refuted",
    "C38_set_get_partial",
    "C38_nil_first_refuted",
    "C38_unsigned_refuted",
    "C38_graph_partial"
   ],
   "note": "Every path and context for which Get returns and the first subnode is not nil (C38_nil_first_refuted: otherwise a panic), every content: texts, integers, floats (integer part; float32 and float64 kept, integers rounded to the nearest float64), booleans, pointers. C38_unsigned_refuted: an unsigned integer from 2^63 on comes back negative. C38_graph_partial: of a graph as content GetBytes gives its content, GetString that of its first subnode; a pointer that is nil makes GetInt64 panic. With the empty path the getters read the graph itself (C38_empty_path; C38_bool_number_refuted: there the number 1 is not true)."
  },
  {
   "property": "C39",
   "status": "partial",
   "theorems": [
    "C39_tree",
    "C39_panics_partial",
    "C39_trailing_refuted",
    "C39_template_panics_partial",
    "C39_path_partial",
    "C39_expression_partial",
    "C39_path_utf8_partial",
    "C39_path_refuted",
    "C39_expression_refuted",
    "C39_template_partial",
    "C39_expression_stops_partial",
    "C39_template_utf8_partial",
    "C39_expression_utf8_partial",
    "C39_template_refuted"
   ],
   "note": "NewPath returns for every ASCII text (and every well lettered UTF-8 text) up to 4094 bytes. NewExpression and NewTemplate return a graph or panic for the same texts: they do not run forever. Refuted: NewPath never returns on a name, '(' and U+00D7, whatever follows; NewExpression panics on every expression that begins with an operator that is not a sign and has another operator, NewTemplate on $(*3+4). Exact criterion (C39_tree, C39_panics_partial): for the same texts NewExpression panics if and only if, in some expression of at least three parts of the parsed graph, the run of operators at the beginning that bind more and more strongly, or the run at the end that do not bind more strongly than the one before them, has an odd length. C39_trailing_refuted: every well formed expression with an operator, followed by one more operator, panics. C39_template_panics_partial: the same criterion for NewTemplate."
  },
  {
   "property": "C40",
   "status": "partial",
   "theorems": [
    "C40_expression_partial",
    "C40_tree",
    "C40_unique",
    "C40_hebrew_refuted"
   ],
   "note": "NewExpression on every text of operands (numbers, quoted strings, paths) and operators, with any blanks, up to 4094 bytes gives the unique grouped tree with that reading; the syntax tree construction for any length. Operands in parentheses are not covered (the code does not build a tree for them). Paths may use letters of any alphabet, except that a path whose first byte is 0xD7 (Hebrew) is taken as a constant (C40_hebrew_refuted)."
  },
  {
   "property": "C41",
   "status": "proved",
   "theorems": [
    "C41_calc",
    "C41_determined",
    "C41_fails",
    "C41_text_partial"
   ],
   "note": "Integer operands of every kind within int64. C41_text_partial additionally connects expression texts (operands and operators without parentheses, up to 4094 bytes) to the value."
  },
  {
   "property": "C42",
   "status": "partial",
   "theorems": [
    "C42_floats",
    "C42_integers",
    "C42_complement_partial",
    "C42_symmetric_partial",
    "C42_complement_refuted",
    "C42_symmetric_refuted",
    "C42_nil_refuted"
   ],
   "note": "Integers, and finite floats on the left of a number: proved. Complement and symmetry of == hold when no number is compared with something of another class; C42_complement_refuted (1 and \"a\"), C42_symmetric_refuted (1 and 1.5) and C42_nil_refuted give the failures."
  },
  {
   "property": "C43",
   "status": "partial",
   "theorems": [
    "C43_and_or",
    "C43_not_partial",
    "C43_not_refuted"
   ],
   "note": "Truth tables of && and || for all values; ! negates the value of its operand in the syntax tree, but the parser hands ! a bare name instead of a path (C43_not_refuted: !a is true although a is true)."
  },
  {
   "property": "C44",
   "status": "partial",
   "theorems": [
    "C44_group_partial",
    "C44_values_partial",
    "C44_value_refuted",
    "C44_panic_refuted",
    "C44_one_refuted",
    "C44_operators_refuted"
   ],
   "note": "The claim is false of the code for every parenthesised expression: with one operand the value is a graph (C44_one_refuted, C44_value_refuted), with operators evaluation panics (C44_operators_refuted, C44_panic_refuted). C44_group_partial states what one operand in parentheses evaluates to in the syntax tree. C44_values_partial: with several expressions in it, a group evaluates to their values in order."
  },
  {
   "property": "C45",
   "status": "partial",
   "theorems": [
    "C45_text_partial",
    "C45_text_before_partial",
    "C45_dollar_partial",
    "C45_marker_refuted"
   ],
   "note": "Any length, through the real buffer, for every text of template characters except the eight words in `markers` (C45_marker_refuted: the text !end is output as nothing). Text followed by other parts and $\\ are covered within the syntax of TemplateSpec; in templates longer than 4094 bytes their names are plain, and every variable is followed by a further byte (`legible`)."
  },
  {
   "property": "C46",
   "status": "partial",
   "theorems": [
    "C46_variable_partial",
    "C46_missing_partial",
    "C46_braces_partial",
    "C46_between_partial",
    "C46_end_stale",
    "C46_end_refuted",
    "C46_hops_partial",
    "C46_hops_invalid_partial",
    "C46_path_partial",
    "C46_path_braces_partial",
    "C46_path_missing_partial",
    "C46_asked_partial"
   ],
   "note": "Paths of ordinary names (letters of any alphabet) whose text is not continued by what follows, contexts without nil children. Templates longer than 4094 bytes: names of ASCII letters and digits, something after the last name (`legible`). Missing names are output as nothing, in contexts whose contents are plain data. C46_end_stale and C46_end_refuted: a name that ends a template longer than 4096 bytes is continued with a byte from the middle of the text, so that another variable is output. P_TemplatePath.v: paths with indexes and quoted names ($a[1], C46_path_partial, with braces C46_path_braces_partial), missing ones (C46_path_missing_partial), and the reserved names _len, _this, _string, _thisString, _json (C46_asked_partial). P_TemplateHops.v: indexes, selectors and names that are expressions ($a[i], ${a[i]}) as the first variable of a template of at most 4094 bytes (C46_hops_partial); an index that is no position shows nothing (C46_hops_invalid_partial). Operators within parentheses and calls in template paths are not covered."
  },
  {
   "property": "C47",
   "status": "partial",
   "theorems": [
    "C47_branch_partial",
    "C47_condition_partial"
   ],
   "note": "Chains of any length, within the syntax of TemplateSpec, beyond 4094 bytes under `legible` (as C46); conditions are whatever evalBool makes of them, C47_condition_partial connects them to truth values for conditions that denote one."
  },
  {
   "property": "C48",
   "status": "partial",
   "theorems": [
    "C48_loop_partial",
    "C48_break_partial",
    "C48_nothing_partial",
    "C48_break_refuted",
    "C48_single_refuted"
   ],
   "note": "Any list of subnodes, within the syntax of TemplateSpec, beyond 4094 bytes under `legible` (as C46), no inner loop over the same variable, no assignment in the body and no loop over the context itself (the loop variable holds the element itself, which the tree model does not show; C84 has the model on nodes). Two parts of the claim are false: $break inside a conditional does not end the loop (C48_break_refuted) and a list that consists of a single leaf is not visited (C48_single_refuted)."
  },
  {
   "property": "C49",
   "status": "proved",
   "theorems": [
    "C49_response",
    "C49_bytes",
    "C49_request",
    "C49_length_refuted",
    "C49_v1"
   ],
   "note": "Every segmentation of the body, every response that the binary format can carry (see C01) and is not empty. The four length bytes must come in one Read: C49_length_refuted gives a failing segmentation of every response. Protocol 1 (C49_v1) has no such condition."
  },
  {
   "property": "C50",
   "status": "partial",
   "theorems": [
    "C50_unsplit_partial",
    "C50_split_refuted",
    "C50_v1_partial"
   ],
   "note": "Requests are answered in order if no segment boundary falls within a length or a body; C50_split_refuted: with any other segmentation the request is not answered and the handler not run. C50_v1_partial: protocol 1, if no segment contains parts of two requests."
  },
  {
   "property": "C51",
   "status": "partial",
   "theorems": [
    "C51_at_most_thrice_partial",
    "C51_open",
    "C51_open_at_most_thrice_partial",
    "C51_once_partial",
    "C51_once_refuted",
    "C51_empty_refuted",
    "C51_v1_at_most_thrice_partial",
    "C51_v1_once_partial",
    "C51_v1_torn_refuted"
   ],
   "note": "The claim is false: C51_once_refuted (every handler and request: a success after three runs) and C51_empty_refuted (three runs without any failure). Proved: at most three runs, all on the request sent, and success only with the last response received; exactly one run if the first attempt goes well. Protocol 1: at most three runs, each on what the parser makes of a beginning of the request, success only with what it makes of a beginning of the last response (C51_v1_at_most_thrice_partial), exactly one run under any segmentation if the first attempt goes well (C51_v1_once_partial); a request cut in the middle of a name is run, and a response cut there is reported as a success (C51_v1_torn_refuted). Protocol 2: a client without an open connection or with one on which nothing is outstanding (C51_open)."
  },
  {
   "property": "C52",
   "status": "proved",
   "theorems": [
    "C52_routing",
    "C52_no_child",
    "C52_not_found",
    "C52_connections",
    "C52_history",
    "C52_connections_v1",
    "C52_history_v1"
   ],
   "note": "Routing: every registration history and request. Connections: every order of the steps (single reads, writes and handler runs) of the connections, protocols 1 and 2; handlers without state (C52_connections), any handlers whose runs are atomic (C52_history)."
  },
  {
   "property": "C53",
   "status": "partial",
   "theorems": [
    "C53_check_partial",
    "C53_message_partial",
    "C53_extra",
    "C53_binary_refuted",
    "C53_binary",
    "C53_panics_refuted"
   ],
   "note": "Schemas with non-empty texts other than !binary, graphs whose contents are neither nil nor pointers to graphs. Outside: a !binary schema accepts nothing, empty schema texts, nil contents and a nil graph panic (refuted)."
  },
  {
   "property": "C54",
   "status": "proved",
   "theorems": [
    "C54_sort",
    "C54_sort_int",
    "C54_insertion",
    "C54_sort_path_partial",
    "C54_key_unique"
   ],
   "note": "sort.Sort is any function that keeps its documented promise (predicate sorts; the library's insertion sort is shown to keep it). Every child must have a key, i.e. evaluating the field must not panic; C54_sort_path_partial shows that this holds for graphs of data and paths of names and quoted strings."
  },
  {
   "property": "C55",
   "status": "partial",
   "theorems": [
    "C55_wellformed_partial",
    "C55_unchanged_partial",
    "C55_single_field_refuted",
    "C55_wellformed_refuted",
    "C55_unchanged_refuted"
   ],
   "note": "Graphs in the form of a document: several fields with one subnode each, lists of groups under _, leaves, texts without backslash and control characters. Outside: a single field, a list of leaves, a field with several subnodes or a backslash give text that is not JSON; a panic (nil subnode) leaves the root without its content (refuted). The graph is unchanged whenever JSON() returns."
  },
  {
   "property": "C56",
   "status": "partial",
   "theorems": [
    "C56_import_partial",
    "C56_parts",
    "C56_array_refuted",
    "C56_number_refuted",
    "C56_distinct_refuted"
   ],
   "note": "Every decoded document that is not a list or null at the top, with numbers that ParseInt or ParseFloat accept. Of a list only the first element is returned (refuted). The decoder of encoding/json is not modelled."
  },
  {
   "property": "C57",
   "status": "proved",
   "theorems": [
    "C57_tree",
    "C57_unique",
    "C57_cut"
   ],
   "note": "Over the tokens that encoding/xml returns; accent removal and TrimSpace are parameters. Also every document cut short."
  },
  {
   "property": "C58",
   "status": "partial",
   "theorems": [
    "C58_separate",
    "C58_add",
    "C58_add_visible",
    "C58_addnodes",
    "C58_assign_partial",
    "C58_assign_new",
    "C58_assign_refuted",
    "C58_tree_add",
    "C58_tree_addnodes",
    "C58_tree_delete"
   ],
   "note": "Separation: every heap, every history of the modelled operations, panics included. Sharing: Add and AddNodes in full, assignment at paths of texts that are there or whose last name is missing; assigning a node to itself empties it (C58_assign_refuted). C58_tree_*: the tree operations of Graph.v are what Add, AddNodes, Clear and DeleteAt look like."
  },
  {
   "property": "C59",
   "status": "partial",
   "theorems": [
    "C59_strings",
    "C59_txt",
    "C59_csv",
    "C59_csv_readable",
    "C59_txt_readable",
    "C59_default",
    "C59_csv_empty_refuted",
    "C59_default_refuted"
   ],
   "note": "Proved for every graph with printable contents (StringCSV: with at least one subnode). Refuted: StringCSV panics on a node without subnodes; the default is only used on a nil graph."
  },
  {
   "property": "C60",
   "status": "partial",
   "theorems": [
    "C60_found",
    "C60_returns",
    "C60_unique",
    "C60_bad_expression",
    "C60_nil_refuted"
   ],
   "note": "Proved for every graph without nil subnodes and every matcher; refuted: nil is never returned when nothing matches, and a nil graph panics."
  },
  {
   "property": "C61",
   "status": "partial",
   "theorems": [
    "C61_lines_partial",
    "C61_fragment_partial",
    "C61_escape_refuted",
    "C61_open_link_refuted"
   ],
   "note": "Proved for contents and paths without blanks, quotes, commas, parentheses, '<' and '&'; refuted: nothing is escaped, and a content with a blank leaves its link open."
  },
  {
   "property": "C62",
   "status": "partial",
   "theorems": [
    "C62_rules",
    "C62_xml",
    "C62_unchanged",
    "C62_loses_refuted",
    "C62_panics_refuted"
   ],
   "note": "The rules are proved for every tree, and Simplify returns on the graph of every XML document in which no text and no element name is @id; refuted: other subnodes of a node with an @id are dropped, and a bare text @id before something else panics."
  },
  {
   "property": "C63",
   "status": "partial",
   "theorems": [
    "C63_declared_type",
    "C63_same_type",
    "C63_integers",
    "C63_floats",
    "C63_strings",
    "C63_not_convertible_refuted",
    "C63_bad_number_refuted"
   ],
   "note": "Every converted value has the declared type; same type unchanged; integers, integers as floats (the nearest float64), the integer part of floats and string lists keep their value. Refuted: many pairs (integer to string, anything to interface{}) give an invalid value, and a text that is no number becomes 0."
  },
  {
   "property": "C64",
   "status": "partial",
   "theorems": [
    "C64_assign_partial",
    "C64_others_partial",
    "C64_index_partial",
    "C64_chain_refuted",
    "C64_empty_refuted"
   ],
   "note": "Graphs of data, paths of names (and, for =, a last index), expressions without parentheses that denote an integer, text or boolean, up to 4094 bytes; variables that hold an integer or a text, or are missing (then += stores the value, -= its negative, *= 0, /= and %= a word). C64_chain_refuted: a=b=3 sets neither; C64_empty_refuted: += on an empty variable panics."
  },
  {
   "property": "C65",
   "status": "partial",
   "theorems": [
    "C65_function_partial",
    "C65_get_partial",
    "C65_method_partial",
    "C65_remote_partial",
    "C65_operator_refuted",
    "C65_below_refuted",
    "C65_int_refuted",
    "C65_error_refuted",
    "C65_excess_refuted",
    "C65_method_get_refuted"
   ],
   "note": "Arguments that are numbers, strings or paths of names with at least one value (blanks only before them), f and o names directly below the root, functions that do not modify the graph, not variadic, texts up to 4094 bytes; after a function call names may follow. Method parameters: arguments that are converted according to `becomes` (floats not included). Refuted by witness: C65_operator (f(1+2) passes 1), C65_below (a.f(1) is called without arguments), C65_int (int parameters never match a number), C65_error (an error result is dropped), C65_excess (an argument too many that is not found panics), C65_method_get (Get never finds a method's graph; Eval ignores what follows a method call)."
  },
  {
   "property": "C66",
   "status": "partial",
   "theorems": [
    "C66_all_partial",
    "C66_path_partial",
    "C66_missing_partial",
    "C66_value_partial",
    "C66_value_refuted"
   ],
   "note": "Contents that survive the emitter (C18) and paths of names, quoted names and indexes, with any reader. C66_value_refuted: a value is printed raw, so one with blanks does not read back as one value."
  },
  {
   "property": "C67",
   "status": "partial",
   "theorems": [
    "C67_json_partial",
    "C67_json_error_refuted",
    "C67_json_list_refuted",
    "C67_xml_partial",
    "C67_xml_path_partial",
    "C67_xml_id_partial",
    "C67_xml_id_missing_refuted",
    "C67_xml_id_loses_refuted"
   ],
   "note": "JSON objects and XML documents whose texts survive the emitter (C18); the decoders are parameters. Refuted: input that is not JSON prints an empty line (C67_json_error), of a list only the first element is printed (C67_json_list), -id with a path that leads nowhere panics (C67_xml_id_missing), -id drops subnodes (C67_xml_id_loses)."
  },
  {
   "property": "C68",
   "status": "partial",
   "theorems": [
    "C68_data_partial",
    "C68_first_partial",
    "C68_first_file_refuted",
    "C68_other_files",
    "C68_no_data_partial",
    "C68_no_data_assignment_refuted"
   ],
   "note": "Templates as in C45-C48, data files that can be read and are not empty; C68_other_files: other files after a readable first one are passed over. C68_first_file_refuted: if the first data file is missing or empty, all the others are ignored too. C68_no_data_partial: with no data, or a missing or empty first file, exactly the texts and the $else parts are printed, when conditions are about the data and other expressions are such or constants. C68_no_data_assignment_refuted: an assignment of a constant then panics."
  },
  {
   "property": "C69",
   "status": "partial",
   "theorems": [
    "C69_get_partial",
    "C69_missing_partial",
    "C69_safe_partial",
    "C69_compose_partial",
    "C69_those",
    "C69_eval_partial",
    "C69_set_refuted"
   ],
   "note": "Get and Eval proved for paths in which a selector follows a name or quoted string and is {} or {digits}, on graphs whose nodes exist and print; missing names and safety of the getters on graphs of data. Expressions between the braces: see C81. Selectors after an index or another selector: see C89. Not proved: selectors after arguments. Refuted for Set: it stores below a new subnode named !s."
  },
  {
   "property": "C70",
   "status": "partial",
   "theorems": [
    "C70_server",
    "C70_server_v1",
    "C70_process",
    "C70_client",
    "C70_received",
    "C70_router",
    "C70_hangs_refuted",
    "C70_client_hangs_refuted",
    "C70_call",
    "C70_call_v1",
    "C70_neither_refuted"
   ],
   "note": "No panics: proved for servers and clients of both protocols over all bytes, segmentations and interleavings; handlers that do not panic on graphs without nil subnodes and pointers; allocation is assumed to succeed. That every request is answered or its connection left is false: C70_hangs_refuted, C70_client_hangs_refuted (a text that is not ended is read forever). C70_call, C70_call_v1: over any network whose operations do not panic, Call does not either and returns a response with subnodes, none of them nil, or an error; C70_neither_refuted: a Read that gives neither data nor an error makes Call return neither."
  },
  {
   "property": "C71",
   "status": "partial",
   "theorems": [
    "C71_floats",
    "C71_determined",
    "C71_operands",
    "C71_zero",
    "C71_remainder",
    "C71_remainder_refuted",
    "C71_texts",
    "C71_text_second",
    "C71_text_first",
    "C71_numeric_text_refuted",
    "C71_infinite_left",
    "C71_infinite_right",
    "C71_infinities",
    "C71_nan",
    "C71_infinite_order"
   ],
   "note": "Every pair of finite numbers with at least one float: + - * / are correctly rounded (nearest, ties to even, overflow to infinity; rounds determines the result but for the sign of zero), division by zero gives infinity or NaN, % the remainder of the integer parts; order of float operands (C42_floats). Refuted: % panics when the divisor is below 1; a text on the left is joined with the number whatever the operator, so a numeric text is not converted. Infinities and NaN follow IEEE 754 (C71_infinite_left ... C71_nan)."
  },
  {
   "property": "C72",
   "status": "proved",
   "theorems": [
    "C72_history",
    "C72_step",
    "C72_variables",
    "C72_look",
    "C72_shared_refuted"
   ],
   "note": "Proved by refinement between Heap.v (nodes with addresses) and Graph.v/Eval.v (trees), for any sequence of the operations on any number of graphs, from any state without sharing, in particular from nothing. Assumes: a graph that was stored in another one is not used through its own variable afterwards; the two graphs of one call are different ones (Copy of a graph to itself or to a part of it: C90); contents are not graphs themselves, so Set stores a graph only under a name, not at an index; indexes in a path are int64. Paths are given as elements (names and indexes), as the path parser delivers them. C72_look adds Node and GetAt. C72_shared_refuted shows that the assumption about sharing is needed."
  },
  {
   "property": "C73",
   "status": "partial",
   "theorems": [
    "C73_history",
    "C73_growth",
    "C73_arrays",
    "C73_others",
    "C73_scalar",
    "C73_nil",
    "C73_scalar_refuted"
   ],
   "note": "All but the last sentence proved by refinement between Slices.v and Heap.v for every history and every growth policy (the caller may assign new slices to Out, but not one slice to two nodes). The last sentence is refuted: Scalar and ThisScalar panic on a node emptied with DeleteAt or Delete, not on one emptied with Clear (C73_scalar_refuted); C73_scalar says exactly what they do, C73_nil that only removals, or the caller, leave an Out that is empty but not nil."
  },
  {
   "property": "C74",
   "status": "partial",
   "theorems": [
    "C74_scanners_partial",
    "C74_answered",
    "C74_unique",
    "C74_break_refuted",
    "C74_max_refuted",
    "C74_max_zero_refuted",
    "C74_number_refuted",
    "C74_point_refuted",
    "C74_quoted_refuted"
   ],
   "note": "Every session over any reader, through the real buffer, with the calls and texts of `reply` (C74_scanners_partial); no call has two answers (C74_unique) and eleven of the calls have one on every text (C74_answered). Refuted: Break consumes a lone CR without reporting it, SpaceMax can take more than its maximum, Number consumes a lone sign and takes a point for a number, Quoted without a closing quote consumes everything. Not covered: Token8 on names that are not ASCII or end the text (C15, C46), ScalarType, quoted strings with backslashes beyond quoted_ok."
  },
  {
   "property": "C75",
   "status": "partial",
   "theorems": [
    "C75_runes_partial",
    "C75_ascii_partial",
    "C75_long_partial",
    "C75_end_refuted",
    "C75_split_refuted",
    "C75_back_refuted"
   ],
   "note": "Proved: every history of Rune, PeekRune and UnreadRune within the characters of a UTF-8 text: on texts up to 4094 bytes (C75_runes_partial); on texts of any length if no character lies across bytes 4096, 6144, 8192 ... and UnreadRune stays within 2048 bytes of the furthest position (C75_long_partial; ASCII texts: C75_ascii_partial). Both conditions are needed: in every ASCII text of 4095 bytes followed by a character of several bytes, Rune returns U+FFFD for it (C75_split_refuted); 2050 bytes back, Rune returns a later character (C75_back_refuted). Refuted: Rune reports no end (it returns 0 without error after the last character, C75_end_refuted)."
  },
  {
   "property": "C76",
   "status": "partial",
   "theorems": [
    "C76_agree",
    "C76_nothing",
    "C76_string",
    "C76_string_refuted",
    "C76_nil_refuted",
    "C76_float_partial",
    "C76_float32_refuted",
    "C76_bool_partial",
    "C76_number_partial",
    "C76_number_other",
    "C76_number_blanks_refuted",
    "C76_plus_refuted"
   ],
   "note": "Agreement and defaults: every content for String, Bytes, Int64, Number and Scalar (C76_agree; Scalar when the content is not nil), Float64 for contents that print and parse back (C76_float_partial), Bool by the printed content (C76_bool_partial); nothing there: C76_nothing, C76_string. Number on every text: C76_number_partial, C76_number_other, C76_number_blanks_refuted. False: Float64 of a float32 is not ThisFloat64 of it (C76_float32_refuted, with Go's texts for 0.1), Number and ThisInt64 refuse integers with blanks around them (C76_number_blanks_refuted, all of them), a plus sign is accepted by ThisInt64 but not as an integer by Number (C76_plus_refuted). String ignores its default when the node has no value (C76_string_refuted), and the getters with This, other than ThisString, panic on nil (C76_nil_refuted). Blank texts panic (C37)."
  },
  {
   "property": "C77",
   "status": "partial",
   "theorems": [
    "C77_value_partial",
    "C77_missing_partial",
    "C77_total",
    "C77_asked_partial",
    "C77_get_partial",
    "C77_get_refuted"
   ],
   "note": "Proved for paths of names, quoted strings, indexes and selectors written with digits, texts that fit the lexer's buffer (C77_value, C77_missing for contents that are data, C77_asked with any elements after the reserved name, which are ignored; C77_total: one of the two cases holds). Calls and groups are not covered here (calls: C65). Get agrees if an index comes last (C77_get_partial); otherwise not: C77_get_refuted, a[0].b is found by Eval and not by Get."
  },
  {
   "property": "C78",
   "status": "partial",
   "theorems": [
    "C78_get_partial",
    "C78_eval_partial",
    "C78_invalid",
    "C78_variable_refuted",
    "C78_operators_refuted"
   ],
   "note": "Proved for numbers written with digits and variables that hold a native integer, in Get and in expressions, mixed with names, groups and selectors; C78_invalid covers every other value, variables that are missing, numbers from 2^63, and paths that fail because of one. False for variables that hold the number as text, as all parsed graphs do (C78_variable_refuted), and with operators, which are ignored: a[1+1] is a[1] (C78_operators_refuted)."
  },
  {
   "property": "C79",
   "status": "partial",
   "theorems": [
    "C79_name_partial",
    "C79_missing_partial",
    "C79_operators_refuted"
   ],
   "note": "Proved for groups that hold a number, a string or a variable, in Get and in expressions (C79_name_partial, C79_missing_partial); C78_get_partial and C78_eval_partial cover any mixture of names, indexes, groups and selectors. False with operators: a.(1+1) is a.(1) when the path stands alone and a.(2) when it is an operand (C79_operators_refuted)."
  },
  {
   "property": "C80",
   "status": "partial",
   "theorems": [
    "C80_formats_partial",
    "C80_log_partial",
    "C80_pointer_refuted"
   ],
   "note": "Graphs whose contents survive the emitter (text_content of C18, which the binary format carries too: text_representable) and are not pointers to graphs, in every history of a log without a crash after the Add. C80_pointer_refuted: a graph as content is written as the content of its first subnode in the text and as its own content in the binary format, so the two are read back as different graphs."
  },
  {
   "property": "C81",
   "status": "partial",
   "theorems": [
    "C81_number_partial",
    "C81_invalid",
    "C81_variable_refuted",
    "C81_operators_refuted"
   ],
   "note": "Proved for numbers written with digits and variables that hold a native integer, below 2^63-1, in Get and in expressions; C78_get_partial and C78_eval_partial cover any mixture of names, indexes, groups and selectors after names or groups. C81_invalid covers every other value, variables that are missing, numbers from 2^63, and paths that fail because of one. False for variables that hold the number as text (C81_variable_refuted) and with operators, which are ignored: a{0+1} is a{0} (C81_operators_refuted)."
  },
  {
   "property": "C82",
   "status": "proved",
   "theorems": [
    "C82_get",
    "C82_eval",
    "C82_text",
    "C82_operators",
    "C82_template",
    "C82_template_text"
   ],
   "note": "Get with any text on any graph: C82_get. Eval and evalBool of any expression tree in which no node with subnodes is an assignment operator: C82_eval; that of any text without the character =: C82_text; of operands joined by operators other than the assignments: C82_operators. Templates: C82_template (trees without assignments and loops), C82_template_text. The functions that an expression calls are outside the model and taken not to modify the graph. C64 has what assignments do; C82_ex_loop shows that a loop modifies the context."
  },
  {
   "property": "C83",
   "status": "partial",
   "theorems": [
    "C83_eval",
    "C83_bool",
    "C83_text",
    "C83_assign_refuted"
   ],
   "note": "Eval on nodes, any expression tree without assignments whose contents are texts, as parsed expressions are, any context that shows a finite tree and holds no functions, objects or graphs as contents (stored); sharing is allowed: C83_eval, C83_bool; texts without the character =: C83_text. Partial because of that restriction on contents, and because with assignments the model on trees is not what happens on nodes: C83_assign_refuted."
  },
  {
   "property": "C84",
   "status": "partial",
   "theorems": [
    "C84_template",
    "C84_text",
    "C84_context_refuted",
    "C84_assign_refuted"
   ],
   "note": "hProcess on nodes against Process on trees: C84_template for template trees whose contents are texts, in which no node assigns and every loop is over a path that does not begin with _this (guarded), in any context without nil subnodes, functions, objects or graphs as contents; C84_text for texts without the character =. Together with C46 to C48 this gives what loops and conditionals write when nodes are shared. Partial because the unrestricted claim is false: C84_context_refuted (a loop over the context never returns, for every fuel), C84_assign_refuted (an assignment through the variable modifies the element)."
  },
  {
   "property": "C85",
   "status": "partial",
   "theorems": [
    "C85_eval",
    "C85_bool",
    "C85_template",
    "C85_get_partial",
    "C85_set_partial",
    "C85_text_partial",
    "C85_length_refuted",
    "C85_nodes",
    "C85_nodes_template",
    "C85_getters_partial"
   ],
   "note": "C85_eval, C85_bool, C85_template: for every expression or template tree and every context, the answer is there with one level of recursion more than the tree has and does not change with more (fuel stands for the depth of recursion and the number of loop steps). C85_get_partial, C85_getters_partial, C85_set_partial, C85_text_partial: from the text, for texts up to 4094 bytes whose bytes above 127 are well formed letters (well_lettered, as in C39). C85_nodes, C85_nodes_template: on nodes in memory, with the conditions of C83 and C84. Partial because of the bound on the text, which is needed: C85_length_refuted."
  },
  {
   "property": "C86",
   "status": "partial",
   "theorems": [
    "C86_assign_partial",
    "C86_assign_stuck",
    "C86_assign_right",
    "C86_loops_partial",
    "C86_loops_context",
    "C86_loops_text_partial",
    "C86_panics_partial",
    "C86_faulty",
    "C86_text_partial",
    "C86_template_partial",
    "C86_get_partial"
   ],
   "note": "C86_panics_partial: a panic of Eval on a well-placed expression (formed) that assigns nothing, in a context of data without nil nodes (stored false), has a faulty operator in the expression (fault_in); C86_faulty: a faulty operator panics, in every context. C86_text_partial: the same from the text, for the grammar of C40 (no parentheses), without the quoted path element !g. C86_template_partial: a panic of Process on a template without loops (page) has a faulty operator, or a path whose value Text panics on. C86_loops_partial: with loops over paths other than the context (sheet), the same in a context that is the given one apart from the subnodes named like variables of the loops (apart_from); C86_loops_context: if it does not panic the context is the same afterwards apart from those; C86_loops_text_partial: from the text, for the grammar of C45-C48 (modest). C86_assign_partial: a panic of p op e (p names, context of data) comes from e, or the variable p is there but cannot be updated (stuck: empty, or /= and %= by something that counts as 0); C86_assign_stuck, C86_assign_right: these do panic. C86_get_partial: the same for Get, where indexes, selectors and groups hold well-placed expressions and the second element is not a method of Graph. to_json is assumed not to panic on data. Partial: loops over the context itself or over what is not a path, the converse for templates, assignments inside other expressions or to indexes, functions in the context, and expressions the parser leaves misplaced (which do panic: C39_expression_refuted, C44_panic_refuted) are not covered."
  },
  {
   "property": "C87",
   "status": "proved",
   "theorems": [
    "C87_assign",
    "C87_history",
    "C87_shared_refuted",
    "C87_text"
   ],
   "note": "C87_assign: hEval of an assignment (path elements as parsed, right side quiet, texts as contents, yielding no node, function or object in this context) tracks Eval on the tree: same outcome, the context afterwards spread as the tree says, other nodes unchanged; C87_history: any sequence of such assignments and of expressions without assignments. to_json on nodes is assumed to agree with to_json on trees. The value that the assignment itself returns is not compared. C87_text: from the text of an assignment, for the grammar and conditions of C64: on nodes the variable holds what C64 says and every other node is unchanged. C87_shared_refuted: with a node at two places it fails; for assigned nodes see C83_assign_refuted."
  },
  {
   "property": "C88",
   "status": "partial",
   "theorems": [
    "C88_text_partial",
    "C88_binary_partial",
    "C88_equals_partial",
    "C88_equal_written",
    "C88_type_refuted",
    "C88_lines_refuted",
    "C88_nul_refuted",
    "C88_zero_refuted"
   ],
   "note": "Contents that survive the emitter (text_content of C18; for Binary alone: representable of C01), no graphs as contents. Refuted outside: 1 and the text \"1\" are written alike but not equal (C88_type_refuted), a text of two lines at the top level is written as a node with a subnode (C88_lines_refuted), a text with the byte 0 as two nodes in the binary format (C88_nul_refuted), and 0 and -0 are equal to Equals but printed differently (C88_zero_refuted)."
  },
  {
   "property": "C89",
   "status": "proved",
   "theorems": [
    "C89_get",
    "C89_eval",
    "C89_no_name",
    "C89_names",
    "C89_after_index"
   ],
   "note": "C89_get and C89_eval: every path in which indexes and selectors are numbers, variables that hold integers, or empty braces (operators after them have no effect, C78), texts up to 4094 bytes, graphs whose nodes exist and print. For Eval the path begins with a name and has no reserved names. C89_after_index: p.a[i]{}; C89_no_name: a selector before any name; C89_names: the paths of C69 and C81 are a special case."
  },
  {
   "property": "C90",
   "status": "partial",
   "theorems": [
    "C90_self_partial",
    "C90_part_partial",
    "C90_double",
    "C90_below_refuted"
   ],
   "note": "C90_self_partial and C90_double: g.Copy(g); C90_part_partial: h is any node that does not have g below it (apart from g, or part of g). Partial because the rest is false: if g is below h, at any depth, over nodes with contents, the call never returns normally (C90_below_refuted, for every fuel): each new node becomes part of what is still to be copied."
  },
  {
   "property": "C91",
   "status": "partial",
   "theorems": [
    "C91_add",
    "C91_addnodes",
    "C91_clone",
    "C91_no_tree",
    "C91_refuted"
   ],
   "note": "The claim is false (C91_refuted). What holds: C91_add and C91_addnodes give the exact condition, for any memory: after g.Add(n) a node is below itself if and only if g is n or below n (for AddNodes: a child of n, or below one); adding what is not a graph never does it. C91_clone: on a node from which one gets to a node below itself Clone does not return, for every fuel; C91_no_tree: it shows no finite graph."
  },
  {
   "property": "C92",
   "status": "proved",
   "theorems": [
    "C92_path",
    "C92_get",
    "C92_set",
    "C92_ill_formed",
    "C92_expression"
   ],
   "note": "NewPath, Get and Set with a path followed by anything that cannot continue it (C92_path, C92_get, C92_set), names followed by ill-formed UTF-8, where the environment must not count U+FFFD as a letter or digit (C92_ill_formed), expressions of operands and operators followed by something else (C92_expression)."
  },
  {
   "property": "C93",
   "status": "partial",
   "theorems": [
    "C93_own_partial",
    "C93_graph",
    "C93_nil",
    "C93_graph_refuted"
   ],
   "note": "True if v is neither nil nor a graph or the path has an index (C93_own_partial), for memory of any shape. Otherwise Set returns nil for nil (C93_nil) and for a graph that graph itself (C93_graph), which is not part of g: what is added to it is not seen in g (C93_graph_refuted)."
  },
  {
   "property": "C94",
   "status": "partial",
   "theorems": [
    "C94_quiet_partial",
    "C94_text_partial",
    "C94_loop_partial",
    "C94_path_partial",
    "C94_page_partial",
    "C94_assign_refuted",
    "C94_variable_refuted",
    "C94_list_refuted"
   ],
   "note": "True of any template tree without assignments and loops (C94_quiet_partial; of any text without the character = and without loops, C94_text_partial), and of a loop and what follows it, without assignments or other loops, if its list has the same value the second time (C94_loop_partial), in particular if the list is given by a path of names that begins with another name than the variable (C94_path_partial), and also with texts and variables before it that are there and begin with another name (C94_page_partial); these three within the syntax of TemplateSpec, the direct subnodes of the context comparable, and not a loop over the context itself. Otherwise false: an assignment (C94_assign_refuted); the variable of a loop, used before the loop (C94_variable_refuted); a loop whose variable has the name of its list, which is lost (C94_list_refuted). The functions that a template calls are those of the model of calls: they modify nothing and return the same again."
  },
  {
   "property": "C95",
   "status": "proved",
   "theorems": [
    "C95_show",
    "C95_shown",
    "C95_read_back"
   ],
   "note": "C95_show: for any graph and the tree that it is shown as, equal results, panics included; C95_shown: there is exactly one such tree if all contents have a string form; C95_read_back: under text_content, the conditions of C18_text_round_trip_partial (levels up to 1020), which say exactly which contents. FromString within the model of C18."
  },
  {
   "property": "C96",
   "status": "proved",
   "theorems": [
    "C96_sort",
    "C96_sort_int",
    "C96_again",
    "C96_again_int",
    "C96_equal_refuted",
    "C96_method_refuted"
   ],
   "note": "sort.Sort is any function that keeps its documented promise (predicate sorts, as for C54). That a key exists says that evaluating the field neither panics nor modifies the child. Children that are equal as graphs may share a key: the model has no identity of nodes. C96_sort, C96_again for Sort; C96_sort_int, C96_again_int for SortAsInt; the second sentence is C96_equal_refuted (two orders of the same children) and C96_method_refuted (two methods, both shown to keep the promise)."
  },
  {
   "property": "C97",
   "status": "proved",
   "theorems": [
    "C97_nothing",
    "C97_commute",
    "C97_chain",
    "C97_undo",
    "C97_commute_refuted",
    "C97_undo_refuted"
   ],
   "note": "C97_nothing, C97_commute, C97_chain, C97_undo, one for each sentence; the last sentence is C97_commute_refuted and C97_undo_refuted (a and b exchanged). A graph with a missing node makes Substitute panic (C29_nil_child_refuted). The graph is a tree in the model of Graph.v; that the code does the same on nodes in memory is RefineFacts, for graphs that share no nodes."
  },
  {
   "property": "C98",
   "status": "proved",
   "theorems": [
    "C98_again",
    "C98_commute",
    "C98_not_found",
    "C98_add",
    "C98_at",
    "C98_add_refuted",
    "C98_not_found_refuted"
   ],
   "note": "C98_again, C98_commute, C98_at, C98_not_found, C98_add; the exceptions are C98_add_refuted (not-a-number) and C98_not_found_refuted (an integer). With a missing subnode or an uncomparable content Delete can panic (see C25)."
  },
  {
   "property": "C99",
   "status": "proved",
   "theorems": [
    "C99_last",
    "C99_again",
    "C99_order_refuted"
   ],
   "note": "C99_last (q may be empty) and C99_again; C99_order_refuted for the last sentence: the graphs differ when two new names are set in the other order. Names as in C31 (paths up to 4094 bytes, the buffer of the lexer). Of indexes and selectors in p nothing is said; see C35."
  }
 ]
}