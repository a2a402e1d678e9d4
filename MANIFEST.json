{
 "claims": [
  {
   "property": "C01",
   "status": "proved",
   "theorems": [
    "C01_integer_round_trip",
    "C01_decoder_is_twos_complement"
   ],
   "note": ""
  },
  {
   "property": "C02",
   "status": "proved",
   "theorems": [
    "C02_length_round_trip",
    "C02_length_encodes",
    "C02_length_refuses"
   ],
   "note": ""
  },
  {
   "property": "C03",
   "status": "proved",
   "theorems": [
    "C03_value_round_trip",
    "C03_value_encodes"
   ],
   "note": "Python's recursion limit is not modelled: very deep nesting raises RecursionError in CPython."
  },
  {
   "property": "C04",
   "status": "proved",
   "theorems": [
    "C04_prefix_is_insufficient"
   ],
   "note": "For every object of the model and every decoder context."
  },
  {
   "property": "C05",
   "status": "proved",
   "theorems": [
    "C05_progress_and_bounds",
    "C05_list_decoding_ends",
    "C05_message_decoding_ends"
   ],
   "note": ""
  },
  {
   "property": "C06",
   "status": "partial",
   "theorems": [
    "C06_insufficient_data_partial",
    "C06_indefinite_length_refuted",
    "C06_inner_length_refuted"
   ],
   "note": "Holds for every cut of an encoded request. False in general: indefinite lengths and inner elements longer than their message stall the connection for ever (refuted)."
  },
  {
   "property": "C07",
   "status": "partial",
   "theorems": [
    "C07_segmentation_server_partial",
    "C07_segmentation_client_partial",
    "C07_segmentation_refuted"
   ],
   "note": "Holds for every stream whose top-level elements are SEQUENCEs. False in general: an unknown top-level element ends the loop and later buffered messages wait (refuted)."
  },
  {
   "property": "C08",
   "status": "proved",
   "theorems": [
    "C08_pipelined_requests",
    "C08_pipelined_responses"
   ],
   "note": "Every list of messages and every segmentation; up to the empty SASL credentials of C09 and C10."
  },
  {
   "property": "C09",
   "status": "partial",
   "theorems": [
    "C09_request_round_trip_partial",
    "C09_request_encodes",
    "C09_request_round_trip_refuted"
   ],
   "note": "Holds for every request except a SASL bind with present but empty credentials, which arrives without credentials. The full statement is refuted."
  },
  {
   "property": "C10",
   "status": "partial",
   "theorems": [
    "C10_response_round_trip_partial",
    "C10_response_encodes",
    "C10_response_round_trip_refuted"
   ],
   "note": "Holds for every response except a bind response with present but empty SASL credentials. The full statement is refuted."
  },
  {
   "property": "C100",
   "status": "partial",
   "theorems": [
    "C100_searches_partial",
    "C100_one_reading",
    "C100_injection_refuted",
    "C100_octets_refuted",
    "C100_records_refuted",
    "C100_case_refuted"
   ],
   "note": "Proved for all lines: one reading each; every search belongs to one question, once, and is for the host or address in it if that has no asterisk, parenthesis, backslash, NUL or tab. Refuted for the other names, for values that are octets or have line feeds, and for names in capitals."
  },
  {
   "property": "C101",
   "status": "partial",
   "theorems": [
    "C101_config",
    "C101_runs_partial",
    "C101_one_reading",
    "C101_one_net",
    "C101_inside_partial",
    "C101_host_bits_refuted",
    "C101_octets_refuted",
    "C101_narrow_refuted",
    "C101_spelling_refuted",
    "C101_injection_refuted"
   ],
   "note": "Proved for all entries and all orders of the sets: a run that raises nothing prints exactly the configuration that the entries say, and complains about exactly what has no place in it. It raises nothing when the entries are complete text that can be read and no two hosts share a name. Partial because the values a server sends are octets: then the script raises and prints nothing, which is proved too. The filters of the three searches are not modelled."
  },
  {
   "property": "C102",
   "status": "proved",
   "theorems": [
    "C102_shape",
    "C102_each",
    "C102_source",
    "C102_set",
    "C102_default",
    "C102_print",
    "C102_exit",
    "C102_raised",
    "C102_stops_refuted",
    "C102_pwgen_refuted",
    "C102_bad_dn_refuted"
   ],
   "note": "Every trace of every run has the specified shape, and every event comes from an input for its DN. What getpass, the generator and setPassword give, and when, is arbitrary input. Refuted: a prompt or generator start that raises leaves the tool running for ever; a failed generator, or a DN that cannot be read, leaves the exit status 0."
  },
  {
   "property": "C103",
   "status": "proved",
   "theorems": [
    "C103_each",
    "C103_stop",
    "C103_exit",
    "C103_usage",
    "C103_stuck",
    "C103_stops_refuted"
   ],
   "note": "What a server and Twisted do is arbitrary input along the ways of a server. Refuted: one server that refuses the connection (errback(None) raises) or the bind (no errback) keeps the tool running for ever."
  },
  {
   "property": "C104",
   "status": "partial",
   "theorems": [
    "C104_fails",
    "C104_replaced",
    "C104_one_parent",
    "C104_one_home",
    "C104_no_records_refuted",
    "C104_empty",
    "C104_network_refuted",
    "C104_net",
    "C104_host"
   ],
   "note": "All or nothing is proved. That the files have the records of the networks and addresses is refuted for every input: one network makes the exporter fail, because its broadcast address is negative, and without networks every address is discarded. The lemma zones_written has the texts for a run that succeeds."
  },
  {
   "property": "C105",
   "status": "proved",
   "theorems": [
    "C105_run",
    "C105_exit",
    "C105_usage",
    "C105_bad_dn",
    "C105_bad_dn_refuted",
    "C105_none_refuted"
   ],
   "note": "What the resolver finds is an input and comes after all questions were asked."
  },
  {
   "property": "C106",
   "status": "proved",
   "theorems": [
    "C106_free",
    "C106_session",
    "C106_exit",
    "C106_quick",
    "C106_least_refuted",
    "C106_endless_refuted"
   ],
   "note": "The results of the connection and of each search are inputs."
  },
  {
   "property": "C107",
   "status": "proved",
   "theorems": [
    "C107_password",
    "C107_course",
    "C107_moved",
    "C107_raised",
    "C107_stdin_refuted"
   ],
   "note": "The results of the connection, the bind and the move are inputs, as are the lines read and typed."
  },
  {
   "property": "C11",
   "status": "proved",
   "theorems": [
    "C11_filter_round_trip",
    "C11_filter_encodes"
   ],
   "note": ""
  },
  {
   "property": "C12",
   "status": "partial",
   "theorems": [
    "C12_parser_exact",
    "C12_one_meaning",
    "C12_refuses",
    "C12_round_trip_partial",
    "C12_round_trip_binary_partial",
    "C12_round_trip_smart_partial",
    "C12_tab_refuted",
    "C12_dn_flag_refuted",
    "C12_rule_refuted",
    "C12_empty_refuted",
    "C12_escapers_refuted"
   ],
   "note": "The parser is proved to accept exactly the grammar, with one meaning per text. The round trip holds for filters with non-empty values without tabs, dnAttributes given and rules not beginning with \"dn\"; it is refuted for a tab in a value, dnAttributes None, rules beginning with \"dn\", no substrings and empty values."
  },
  {
   "property": "C13",
   "status": "partial",
   "theorems": [
    "C13_escaped_value_partial",
    "C13_same_shape_partial",
    "C13_refuted",
    "C13_empty_refuted"
   ],
   "note": "Proved for all templates and all user strings that are not empty and have no tab; refuted for a tab (the parser expands tabs) and the empty string (the text is refused)."
  },
  {
   "property": "C14",
   "status": "partial",
   "theorems": [
    "C14_identity_partial",
    "C14_config_partial",
    "C14_escaped",
    "C14_refuted",
    "C14_config_refuted"
   ],
   "note": "False as stated: the name is not escaped, refuted with names that match everybody, add conditions, or name a configuration option. Proved for names without special characters, and for names the application escapes first."
  },
  {
   "property": "C15",
   "status": "proved",
   "theorems": [
    "C15_escape_round_trip",
    "C15_escape_no_separator",
    "C15_escape_ends"
   ],
   "note": "All strings; also no leading or trailing unescaped space or hash."
  },
  {
   "property": "C16",
   "status": "partial",
   "theorems": [
    "C16_dn_text_round_trip_partial",
    "C16_equals_in_type_refuted"
   ],
   "note": "Every DN whose attribute types contain no \"=\" and which is not the list of one empty RDN. With \"=\" in a type it is false (refuted)."
  },
  {
   "property": "C17",
   "status": "proved",
   "theorems": [
    "C17_normalises"
   ],
   "note": "Every text that parses."
  },
  {
   "property": "C18",
   "status": "partial",
   "theorems": [
    "C18_equality",
    "C18_hash_partial",
    "C18_hash_refuted",
    "C18_rdn_hash_refuted"
   ],
   "note": "Equality is an equivalence. Hashing is by exact text, so DNs equal up to case hash differently (refuted)."
  },
  {
   "property": "C19",
   "status": "proved",
   "theorems": [
    "C19_contains"
   ],
   "note": ""
  },
  {
   "property": "C20",
   "status": "partial",
   "theorems": [
    "C20_rdn_comparison_partial",
    "C20_dn_comparison_partial",
    "C20_atv_greater_refuted",
    "C20_atv_less_refuted",
    "C20_rdn_transitive_refuted"
   ],
   "note": "RDN and DN comparisons return and agree with equality. Attribute-value pairs: greater-than never returns on unequal pairs, equal pairs can be less; RDN order is not transitive (refuted)."
  },
  {
   "property": "C21",
   "status": "partial",
   "theorems": [
    "C21_attribute_values_partial",
    "C21_binary_value_refuted",
    "C21_update_refuted"
   ],
   "note": "Any history of adds and removes of values that have a text and a bytes form. Refuted for bytes that are not UTF-8 (add and remove raise), and for update(), which does not compare the two forms."
  },
  {
   "property": "C22",
   "status": "partial",
   "theorems": [
    "C22_entry_equality",
    "C22_diff_patch_partial",
    "C22_removed_attribute_refuted",
    "C22_spelling_refuted",
    "C22_binary_refuted"
   ],
   "note": "Values are reproduced for entries of one key and value type without spelling differences, and entries are equal if no attribute is dropped. Refuted in general: a dropped attribute stays without values, a different spelling loses values, binary values cannot be removed."
  },
  {
   "property": "C23",
   "status": "partial",
   "theorems": [
    "C23_values_partial",
    "C23_equal_partial",
    "C23_dropped_attribute_refuted",
    "C23_case_refuted",
    "C23_objectclass_refuted"
   ],
   "note": "For trees made by adds and deletes with lower-case RDNs, shallower than the recursion limit, with one type of name and of value per entry and no attribute spelled in two ways. The values come out right; the entries compare equal unless an attribute disappears or objectClass is spelled otherwise. The rest is refuted: a removed attribute stays empty, RDNs differing in case make an operation fail and lose an entry."
  },
  {
   "property": "C24",
   "status": "partial",
   "theorems": [
    "C24_modify_partial",
    "C24_represents",
    "C24_other_attributes",
    "C24_empty_attribute_refuted",
    "C24_mixed_forms_refuted",
    "C24_mixed_keys_refuted"
   ],
   "note": "Value-set semantics for entries and modifications of one key and value type. Refuted against RFC 4511: attributes may be left without values; text and bytes forms mixed."
  },
  {
   "property": "C25",
   "status": "partial",
   "theorems": [
    "C25_failed_modify_partial",
    "C25_failed_modify_refuted"
   ],
   "note": "Atomicity is refuted. Proved: where a failed modify stops and exactly what it has done."
  },
  {
   "property": "C26",
   "status": "proved",
   "theorems": [
    "C26_modify_roundtrip"
   ],
   "note": "The DN comes back exactly; values are compared as octet strings because text and bytes become bytes on the wire."
  },
  {
   "property": "C27",
   "status": "partial",
   "theorems": [
    "C27_boolean_filters_partial",
    "C27_boolean_filters_ordering_partial",
    "C27_not_utf8_refuted",
    "C27_ordering_text_refuted"
   ],
   "note": "Proved for names and assertion values that are UTF-8. Refuted outside: octets that are not UTF-8 raise UnicodeDecodeError, orderings on text values raise TypeError."
  },
  {
   "property": "C28",
   "status": "partial",
   "theorems": [
    "C28_substrings_partial",
    "C28_substrings_complete_partial",
    "C28_substrings_overlapping",
    "C28_overlap_refuted",
    "C28_final_missed_refuted",
    "C28_final_overlap_refuted"
   ],
   "note": "Exact without middle parts, and with one middle part and a correct final cut. Refuted in general: middle parts may overlap each other and the final part, and the final cut uses the length of the first part."
  },
  {
   "property": "C29",
   "status": "proved",
   "theorems": [
    "C29_search_each_once",
    "C29_search_sound",
    "C29_trees_from_histories"
   ],
   "note": "Any heap that is a tree (shown for every consistent history), any base, filter and scope; Deferreds taken as fired at once; the height is below the recursion limit."
  },
  {
   "property": "C30",
   "status": "partial",
   "theorems": [
    "C30_successful_search_complete_partial",
    "C30_subtree_refuted",
    "C30_deep_tree_refuted"
   ],
   "note": "Holds for base and one-level searches. False for subtree searches: an error below the base is swallowed and entries are missing from a successful result."
  },
  {
   "property": "C31",
   "status": "partial",
   "theorems": [
    "C31_map_of_entries_partial",
    "C31_lower_case_rdns",
    "C31_spelling_refuted"
   ],
   "note": "Holds for all histories whose RDNs are spelled consistently, e.g. in lower case. False in general: children are keyed by RDN text, DNs compare ignoring case."
  },
  {
   "property": "C32",
   "status": "partial",
   "theorems": [
    "C32_move_leaf_partial",
    "C32_values_partial",
    "C32_rename_delete_refuted",
    "C32_move_delete_refuted",
    "C32_overwrite_refuted",
    "C32_descendants_refuted",
    "C32_failed_move_refuted"
   ],
   "note": "Lookups after moving a leaf to a free DN are proved, and so are the attributes after any move that succeeds. Deleting afterwards, moving onto an existing entry, moving non-leaves and failed moves break the claim."
  },
  {
   "property": "C33",
   "status": "partial",
   "theorems": [
    "C33_no_equal_dns_partial",
    "C33_case_refuted"
   ],
   "note": "Holds for consistently spelled histories. False in general: cn=a and cn=A can both be added."
  },
  {
   "property": "C34",
   "status": "partial",
   "theorems": [
    "C34_one_final_response_partial",
    "C34_at_any_time_partial",
    "C34_conversation",
    "C34_abandon_refuted",
    "C34_nonleaf_delete_refuted"
   ],
   "note": "One final response of the right kind and id for every request that expects one, whatever the handler does, over whole conversations (the DNs of the directory stay encodable text). False as stated in two cases: abandon is answered (refuted), and the deletion of an entry with children is not answered (refuted)."
  },
  {
   "property": "C35",
   "status": "partial",
   "theorems": [
    "C35_critical_control_partial",
    "C35_bind_version_refuted",
    "C35_unbind_refuted"
   ],
   "note": "Any critical control is refused with 12 and nothing changes, for all requests that expect an answer. False for binds of another protocol version and for unbind (refuted)."
  },
  {
   "property": "C36",
   "status": "partial",
   "theorems": [
    "C36_bound_means_authenticated",
    "C36_identity_step",
    "C36_anonymous_bind",
    "C36_right_password",
    "C36_wrong_password",
    "C36_no_such_entry",
    "C36_failed_bind_refuted"
   ],
   "note": "First sentence proved for all conversations. Second sentence false: a failed bind leaves the previous identity (refuted)."
  },
  {
   "property": "C37",
   "status": "proved",
   "theorems": [
    "C37_set_password_replaces"
   ],
   "note": "For any hash function with 20 octets of output."
  },
  {
   "property": "C38",
   "status": "proved",
   "theorems": [
    "C38_password_modify",
    "C38_granted",
    "C38_refusals"
   ],
   "note": "For directories whose DNs can be encoded."
  },
  {
   "property": "C39",
   "status": "partial",
   "theorems": [
    "C39_requested_attributes_partial",
    "C39_root_dse_refuted"
   ],
   "note": "Proved for all searches but that for the root DSE, which ignores the requested attributes (refuted)."
  },
  {
   "property": "C40",
   "status": "proved",
   "theorems": [
    "C40_completion"
   ],
   "note": "Any history and any user callbacks, which may send more requests while they run. Deferred cancellation is not modelled."
  },
  {
   "property": "C41",
   "status": "proved",
   "theorems": [
    "C41_routing",
    "C41_stream",
    "C41_kinds",
    "C41_only_responses"
   ],
   "note": "Ids pairwise different, delivery only to the outstanding request with the id of the last message, every such response is delivered, requests are written under their id, and every message of the stream is looked at."
  },
  {
   "property": "C42",
   "status": "partial",
   "theorems": [
    "C42_starttls_partial",
    "C42_plaintext_refuted"
   ],
   "note": "TLS only after a success response to a StartTLS request sent on an idle connection. The second half is false: bytes received in the clear behind the StartTLS response are handled after the switch."
  },
  {
   "property": "C43",
   "status": "partial",
   "theorems": [
    "C43_commit_agrees_partial",
    "C43_own_server_partial",
    "C43_mixed_values_refuted",
    "C43_mixed_names_refuted",
    "C43_discard_refuted",
    "C43_iterator_refuted",
    "C43_binary_refuted",
    "C43_clear_twice_refuted",
    "C43_reads"
   ],
   "note": "Proved for edits with names and values of one type, without inherited set methods, iterators and removal of empty attributes, commits one at a time; the rest is false as the refuted theorems show. Also end to end with ldaptor's own server."
  },
  {
   "property": "C44",
   "status": "partial",
   "theorems": [
    "C44_edit_not_lost_partial",
    "C44_turn_by_turn",
    "C44_edit_while_waiting_refuted",
    "C44_sent_twice_refuted"
   ],
   "note": "An edit made while no commit waits is never lost. False for an edit made while a commit waits: it is lost."
  },
  {
   "property": "C45",
   "status": "partial",
   "theorems": [
    "C45_deleted_entry_unusable_partial",
    "C45_bind_refuted",
    "C45_held_set_refuted",
    "C45_refused_delete_refuted"
   ],
   "note": "Proved for all calls but bind, lookup and namingContext, which do not check; false for those and for attribute sets obtained before."
  },
  {
   "property": "C46",
   "status": "partial",
   "theorems": [
    "C46_search_partial",
    "C46_stops",
    "C46_size_limit_refuted",
    "C46_repeated_name_refuted",
    "C46_matched_dn_refuted"
   ],
   "note": "Entries are collected exactly and in order; errors other than sizeLimitExceeded, responses of another kind and entries whose DN cannot be read fail the search. False for sizeLimitExceeded: always success. False for repeated attribute names: the last values replace the others."
  },
  {
   "property": "C47",
   "status": "partial",
   "theorems": [
    "C47_ldif_roundtrip_partial",
    "C47_long_line_refuted"
   ],
   "note": "Round trip for lists of entries with arbitrary octets as values, with and without the header. Lines over 16384 octets are excluded: the reader raises on them (refuted)."
  },
  {
   "property": "C48",
   "status": "proved",
   "theorems": [
    "C48_chunks"
   ],
   "note": "For the entry parser and the change record parser."
  },
  {
   "property": "C49",
   "status": "partial",
   "theorems": [
    "C49_folding_partial",
    "C49_long_line_refuted"
   ],
   "note": "Any number of folds at any place after the first character. The unfolded line must not exceed 16384 octets (refuted without this)."
  },
  {
   "property": "C50",
   "status": "partial",
   "theorems": [
    "C50_truncation_partial",
    "C50_dn_line_refuted"
   ],
   "note": "Prefix property for all texts and cut points; error for every record cut after its second line. A record cut right after its DN line is dropped without error (refuted)."
  },
  {
   "property": "C51",
   "status": "partial",
   "theorems": [
    "C51_changes_partial",
    "C51_add_refuted"
   ],
   "note": "Modify, delete and add. Excluded: lines over 16384 octets, add without values and attribute names with a carriage return (both refuted)."
  },
  {
   "property": "C52",
   "status": "partial",
   "theorems": [
    "C52_put_partial",
    "C52_add_partial",
    "C52_commit_partial",
    "C52_new_entry",
    "C52_exception_partial",
    "C52_move_refuted"
   ],
   "note": "The process may stop between any two file system calls, or inside a write, of put, addChild and commit: every DN without slashes reads as before, or the whole was done and only the new entry differs. What was written reads back as the entry. An exception leaves the old state too. Missing: RDNs with slashes, and file systems that lose or reorder writes when the machine stops. Refuted for move: between its two renames the children are gone."
  },
  {
   "property": "C53",
   "status": "partial",
   "theorems": [
    "C53_map_partial",
    "C53_children_partial",
    "C53_delete_child_partial",
    "C53_move_partial",
    "C53_ghost_refuted",
    "C53_case_refuted",
    "C53_move_refuted",
    "C53_move_leaf_refuted",
    "C53_move_values_refuted"
   ],
   "note": "Every history of additions and deletions in an empty directory behaves as a map from DN to attributes; lookups, children and deleteChild afterwards agree with it. RDNs are spelled consistently and have no slash, and no entry that ever had a child is deleted. A move that succeeds, to a DN without a directory, moves the entry with its descendants and leaves everything else. Refuted without those: a deleted entry that had a child is still found and cannot be added again; equal DNs in other spelling are not found; a move replaces an existing entry; a move below an entry without children fails; a move of an entry with a second value of its naming attribute leaves the old DN and value in the file."
  },
  {
   "property": "C54",
   "status": "partial",
   "theorems": [
    "C54_get_partial",
    "C54_lookup_partial",
    "C54_children",
    "C54_put_partial",
    "C54_add_partial",
    "C54_delete",
    "C54_commit_partial",
    "C54_move_partial",
    "C54_absolute_refuted",
    "C54_dotdot_refuted",
    "C54_commit_root_refuted"
   ],
   "note": "For DNs without slashes nothing outside the root directory is read or changed, also when the operation stops halfway. Refuted with slashes: an attribute type that starts with a slash, and a value with /../, reach files outside. The root entry of a tree named x.dir is stored beside it."
  },
  {
   "property": "C55",
   "status": "partial",
   "theorems": [
    "C55_at_most_once_in_order",
    "C55_order_partial",
    "C55_all_forwarded",
    "C55_all_in_order_partial",
    "C55_late_refuted",
    "C55_all_forwarded_refuted"
   ],
   "note": "For any hooks and any run, the hook is asked about the requests in the order received, at most once each; each call gives one result, and what is passed on is what these results want, in the order given, none twice; while nothing fails, all of it. With a hook that answers at once, requests are passed on in the order received. False in full: a hook that answers later changes the order (a bind is overtaken by the search after it), and when the connection to the server fails, queued requests other than binds are dropped unanswered."
  },
  {
   "property": "C56",
   "status": "partial",
   "theorems": [
    "C56_order_partial",
    "C56_once",
    "C56_all_sent_partial",
    "C56_blocked",
    "C56_failure_refuted",
    "C56_across_refuted"
   ],
   "note": "Per request the responses are written in order of arrival and all are written once all results are there. False in full: after a failed handleProxiedResponse nothing more is written for that request; the order across requests is not kept."
  },
  {
   "property": "C57",
   "status": "partial",
   "theorems": [
    "C57_request_unchanged_partial",
    "C57_responses_unchanged",
    "C57_controls_refuted",
    "C57_abandon_refuted",
    "C57_ends"
   ],
   "note": "Requests and responses are passed on unchanged with the default hooks. False in full: controls are always dropped, and an abandon keeps the client's message id, which names another operation at the server."
  },
  {
   "property": "C58",
   "status": "partial",
   "theorems": [
    "C58_own_in_order",
    "C58_isolated_partial",
    "C58_isolated_refuted",
    "C58_replies_own",
    "C58_responses",
    "C58_ids",
    "C58_ends"
   ],
   "note": "The full statement is false (C58_isolated_refuted): the list of waiting requests is shared by all connections, and another connection's server coming up sends a waiting request to a connection that is not there. Proved: order, ids, responses, and that nothing is lost when no other connection interferes."
  },
  {
   "property": "C59",
   "status": "partial",
   "theorems": [
    "C59_once_partial",
    "C59_groups",
    "C59_not_before",
    "C59_entries",
    "C59_to_all",
    "C59_refused",
    "C59_lost",
    "C59_compare_refuted"
   ],
   "note": "Proved for bind and search requests while the client stays and the responses can be written to it. False for compare requests, which are passed on too: the client is sent the response of every backend (C59_compare_refuted). A backend that goes before its final response leaves the request unanswered for ever (C59_lost)."
  },
  {
   "property": "C60",
   "status": "proved",
   "theorems": [
    "C60_conversation",
    "C60_success_only",
    "C60_order",
    "C60_one_reply",
    "C60_grants",
    "C60_refused",
    "C60_found",
    "C60_passes_back",
    "C60_unsupported",
    "C60_no_services_refuted",
    "C60_anonymous_refuted"
   ],
   "note": "One bind request, any backend behaviour, any times. The claim itself is proved. Also refuted: with fallback and no services the request is not passed on; an anonymous bind is not passed straight on."
  },
  {
   "property": "C61",
   "status": "partial",
   "theorems": [
    "C61_free_number_partial",
    "C61_used_maximum_refuted",
    "C61_endless_refuted"
   ],
   "note": "Proved without a maximum, or with a free maximum above the minimum. A maximum in use is handed out, and one below the minimum can loop for ever."
  },
  {
   "property": "C62",
   "status": "proved",
   "theorems": [
    "C62_netmask_roundtrip",
    "C62_bad_netmask_refused",
    "C62_numbits_mask"
   ],
   "note": "int() and inet_aton outside plain decimals and dotted quads are parameters."
  },
  {
   "property": "C63",
   "status": "partial",
   "theorems": [
    "C63_error_codes_partial",
    "C63_known_codes",
    "C63_unknown_code_refuted"
   ],
   "note": "Proved for the codes of RFC 4511; for unknown codes resultCode is None."
  },
  {
   "property": "C64",
   "status": "partial",
   "theorems": [
    "C64_nearest_override_partial",
    "C64_text_keys_partial",
    "C64_case_refuted",
    "C64_server_picked"
   ],
   "note": "Nearest key by text; keys equal up to case are missed because the hash is of the text."
  },
  {
   "property": "C65",
   "status": "partial",
   "theorems": [
    "C65_read_object_class",
    "C65_read_attribute_type",
    "C65_read_syntax",
    "C65_read_matching_rule",
    "C65_object_class_partial",
    "C65_attribute_type",
    "C65_syntax",
    "C65_matching_rule",
    "C65_again_object_class_partial",
    "C65_again_attribute_type_partial",
    "C65_again_syntax",
    "C65_again_matching_rule_partial",
    "C65_one_superior_refuted",
    "C65_lenient_refuted"
   ],
   "note": "The grammars are stated as relations between descriptions and text. Every text of a grammar is read as its description. The text of every description that a grammar can say is in the grammar, so it is read back. An object class with one superior in parentheses is not equal to what its text is read as (refuted). What is read from text outside the grammar may not come back (refuted)."
  },
  {
   "property": "C66",
   "status": "proved",
   "theorems": [
    "C66_samba_ids"
   ],
   "note": ""
  },
  {
   "property": "C67",
   "status": "proved",
   "theorems": [
    "C67_domain_name"
   ],
   "note": ""
  },
  {
   "property": "C68",
   "status": "proved",
   "theorems": [
    "C68_request_octets",
    "C68_response_octets",
    "C68_filter_octets",
    "C68_length_octets"
   ],
   "note": "Up to seen_request/seen_response: present but empty SASL credentials are written as absent."
  },
  {
   "property": "C69",
   "status": "proved",
   "theorems": [
    "C69_text_and_bytes"
   ],
   "note": ""
  },
  {
   "property": "C70",
   "status": "partial",
   "theorems": [
    "C70_zone_name_partial",
    "C70_short_prefix_refuted"
   ],
   "note": "Proved for 8 bits and more; below that the name is wrong."
  },
  {
   "property": "C71",
   "status": "proved",
   "theorems": [
    "C71_search_answers_exactly"
   ],
   "note": ""
  },
  {
   "property": "C72",
   "status": "partial",
   "theorems": [
    "C72_compare",
    "C72_modify",
    "C72_modify_dn",
    "C72_server_is_map_partial"
   ],
   "note": "Compare, modify and modifyDN: full effect and outcome code. Add and delete conversations: the directory is the finite map, for RDNs whose spelling is consistent (as in C31); the refusal to delete an entry with children is dropped by the server instead of being answered."
  },
  {
   "property": "C73",
   "status": "partial",
   "theorems": [
    "C73_rdn_stays_partial",
    "C73_refused",
    "C73_bytes_refuted",
    "C73_case_refuted"
   ],
   "note": "Proved for attributes named as in the DN, as text; false for the bytes names of entries found by a search and for another case."
  },
  {
   "property": "C74",
   "status": "partial",
   "theorems": [
    "C74_move",
    "C74_own_move_partial",
    "C74_add_child",
    "C74_set_password",
    "C74_answers",
    "C74_samba",
    "C74_search",
    "C74_lookup_delete_bind",
    "C45_deleted_entry_unusable_partial"
   ],
   "note": "move, addChild, delete, search, lookup, bind, the password modify operation, and setPassword_Samba with the two hashes given; setPassword's choice among plugins is C91, the hashes C92."
  },
  {
   "property": "C75",
   "status": "partial",
   "theorems": [
    "C75_fetch_sends",
    "C75_fetch_partial",
    "C75_fetch_none",
    "C75_stale_refuted",
    "C75_text_name_refuted"
   ],
   "note": "An attribute asked for that the server no longer has keeps its old value; a text name for an octet-named entry gives both old and new values; values that are not UTF-8 are not covered."
  },
  {
   "property": "C76",
   "status": "partial",
   "theorems": [
    "C76_client_gone_partial",
    "C76_client_gone_refuted"
   ],
   "note": "Proved for connections without TLS to the server. False with TLS: the backlog is sent after the client has gone and the connection is not closed."
  },
  {
   "property": "C77",
   "status": "partial",
   "theorems": [
    "C77_server_gone_refuted"
   ],
   "note": "False: after the server has closed its connection, no request is ever answered and the client's connection stays open, for all hooks that do not answer requests themselves, at once or later, and all later events."
  },
  {
   "property": "C78",
   "status": "partial",
   "theorems": [
    "C78_login",
    "C78_refused",
    "C78_empty_password_refuted",
    "C78_refused_early"
   ],
   "note": "The first half is proved as an equivalence. The second half is refuted for the empty password, which is sent to the server as it is."
  },
  {
   "property": "C79",
   "status": "partial",
   "theorems": [
    "C79_equal",
    "C79_named_partial",
    "C79_before",
    "C79_unnamed_partial",
    "C79_ring_refuted",
    "C79_le_refuted",
    "C79_le_partial"
   ],
   "note": "Descriptions with names are ordered by their first names in capitals, and > is < the other way round. With a description without a name there are rings. For the same name with other fields different neither is <= the other."
  },
  {
   "property": "C80",
   "status": "partial",
   "theorems": [
    "C80_loads_partial",
    "C80_refuses_partial",
    "C80_raises",
    "C80_dump_load_partial",
    "C80_no_entry_refuted",
    "C80_spelling_refuted"
   ],
   "note": "Proved for all texts the parser reads, with RDNs spelled consistently after the first entry and DNs within the recursion limit; the parser's own exceptions are passed on. Writing and loading is proved for lines within the reader's limit. Refuted: a file without entries never completes, and equal names spelled differently are both loaded."
  },
  {
   "property": "C81",
   "status": "partial",
   "theorems": [
    "C81_equal_parts",
    "C81_equal_select_partial",
    "C81_flat_exact",
    "C81_order_partial",
    "C81_reflexive",
    "C81_single_exact",
    "C81_and_or_refuted",
    "C81_order_refuted",
    "C81_not_refuted",
    "C81_raises_refuted",
    "C81_ne",
    "C81_ne_refuted",
    "C81_unhashable_refuted"
   ],
   "note": "The full statement is false: an and equals an or of the same parts, reordering below the top may make filters unequal, comparison may raise TypeError, == and != can both hold, ands and ors have no hash. Proved: equal filters have the same parts up to order and connective; with one connective they select the same entries; exact for flat filters."
  },
  {
   "property": "C82",
   "status": "partial",
   "theorems": [
    "C82_entries_alike_partial",
    "C82_modify_alike_partial",
    "C82_delete_alike_partial",
    "C82_effect_partial",
    "C82_hash_refuted",
    "C82_refused_effect_refuted"
   ],
   "note": "The full statement is false: DNs that differ in case make entries and operations equal with different LDIF and hash, and refused deletes may leave different entries. Proved with DNs spelled alike, and for modifications that succeed."
  },
  {
   "property": "C83",
   "status": "partial",
   "theorems": [
    "C83_server_partial",
    "C83_same_text_partial",
    "C83_case_refuted",
    "C83_colon_refuted",
    "C83_ipv6_refuted",
    "C83_empty_host_refuted",
    "C83_usage_partial",
    "C83_usage_refuted",
    "C83_copy",
    "C83_scope",
    "C83_scope_one_refuted"
   ],
   "note": "The server chosen is characterised exactly for all options and files. Refuted: an option in other spelling does not replace the file's entry, DNs with colons and IPv6 addresses are cut apart, an empty host is connected to, some malformed DNs are not reported as usage errors, and the documented scope \"one\" is refused."
  },
  {
   "property": "C84",
   "status": "partial",
   "theorems": [
    "C84_simple_closed_partial",
    "C84_simple_unbind_partial",
    "C84_simple_late_refuted",
    "C84_merged_closed_partial",
    "C84_merged_unbind_partial",
    "C84_merged_late_refuted"
   ],
   "note": "Proved for servers that are connected while the client is there. Refuted for servers that are connected only after the client has gone: the simple proxy then even sends the requests that waited, and the connection stays open."
  },
  {
   "property": "C85",
   "status": "partial",
   "theorems": [
    "C85_fetch_partial",
    "C85_first_search",
    "C85_second_search",
    "C85_no_types_refuted",
    "C85_extension_refuted"
   ],
   "note": "Proved for schemas whose descriptions follow the grammar that the parsers read, with at least one attribute type. Refuted: a schema with no attribute types fails with AssertionError, and one object class with an extension (X-ORIGIN and the like) makes the whole fetch fail."
  },
  {
   "property": "C86",
   "status": "partial",
   "theorems": [
    "C86_naming_context_partial",
    "C86_innermost_refuted",
    "C86_unreadable_refuted"
   ],
   "note": "Proved when all announced contexts are readable. Refuted: it need not be the innermost context, and an unreadable context that comes first makes the call fail."
  },
  {
   "property": "C87",
   "status": "partial",
   "theorems": [
    "C87_base_partial",
    "C87_identity_base_partial",
    "C87_percent_refuted",
    "C87_unread_refuted"
   ],
   "note": "Proved for all values written with doubled percent signs. Refuted: a DN with a lone percent sign is an interpolation error, and text that is no DN is given out unread. References to other options are not described by the specification."
  },
  {
   "property": "C88",
   "status": "partial",
   "theorems": [
    "C88_text_partial",
    "C88_lines",
    "C88_count",
    "C88_octets_refuted",
    "C88_wrong_count_refuted"
   ],
   "note": "Proved for output that is text. Refuted: output that is octets, as Twisted delivers it, never gives a password, and a wrong number of lines fires the Deferred twice."
  },
  {
   "property": "C89",
   "status": "partial",
   "theorems": [
    "C89_line_partial",
    "C89_fields",
    "C89_missing",
    "C89_received_refuted",
    "C89_injection_refuted",
    "C89_case_refuted"
   ],
   "note": "Proved for entries of text. Refuted: entries received from a server never give a line, values with separators inject fields and lines, and attribute names in other case are not found."
  },
  {
   "property": "C90",
   "status": "partial",
   "theorems": [
    "C90_in_net_partial",
    "C90_host_bits_refuted",
    "C90_no_records_refuted",
    "C90_broadcast_refuted",
    "C90_ptr",
    "C90_unreadable"
   ],
   "note": "Membership proved for networks without host bits. Refuted: with host bits a network has no address at all, and the records of no network can be written."
  },
  {
   "property": "C91",
   "status": "partial",
   "theorems": [
    "C91_requests",
    "C91_success_partial",
    "C91_raised",
    "C91_waits",
    "C91_failure",
    "C91_refused",
    "C91_endless_refuted",
    "C91_dirty_refuted",
    "C91_complete"
   ],
   "note": "The plugins of LDAPEntry itself; those of subclasses are not modelled. Success for a Samba account needs that objectClass is not there under a text and an octet name at once. It does not always come to an end, and a call with uncommitted changes may change the password and then raise; both refuted."
  },
  {
   "property": "C92",
   "status": "partial",
   "theorems": [
    "C92_setting_partial",
    "C92_locked",
    "C92_long_refuted"
   ],
   "note": "Values without references to other options. passlib's hash functions are parameters. Passwords that agree in 128 octets have the same NT hash (refuted)."
  },
  {
   "property": "C93",
   "status": "partial",
   "theorems": [
    "C93_started",
    "C93_answered",
    "C93_plaintext_refuted"
   ],
   "note": "TLS is started at most once, only with options, right after the success response to a StartTLS request; every StartTLS request whose id can be written is answered at once with 0, 1 or 52 as the state says. That later requests came over TLS is refuted: the rest of a plaintext segment is handled after TLS was started."
  },
  {
   "property": "C94",
   "status": "proved",
   "theorems": [
    "C94_refused",
    "C94_unreachable"
   ],
   "note": "For message ids that can be written."
  },
  {
   "property": "C95",
   "status": "partial",
   "theorems": [
    "C95_kept_partial",
    "C95_assigned_partial",
    "C95_started",
    "C95_numbers",
    "C95_methods_refuted",
    "C95_spelling_refuted",
    "C95_from_server_refuted",
    "C95_samba_late_refuted",
    "C95_half_refuted"
   ],
   "note": "Missing, because false: numbers changed with the methods of their set (fillers are told before the change, add may raise half way), assigned under another spelling or in bytes; entries as the server sends them; numbers that are there when a sambaAccount filler starts; a failed start has changed the entry. Fillers for sambaSamAccount are taken to be of one domain, and the RDN not to name an identifier."
  },
  {
   "property": "C96",
   "status": "partial",
   "theorems": [
    "C96_written",
    "C96_one_result",
    "C96_every_request",
    "C96_two_calls",
    "C96_answered",
    "C96_calls",
    "C96_identity",
    "C96_truthful",
    "C96_entries_first",
    "C96_bind_in_progress_refuted",
    "C96_binds_cross_refuted",
    "C96_failed_bind_refuted",
    "C96_goes_on_refuted",
    "C96_abandoned_refuted",
    "C96_entries_late_refuted"
   ],
   "note": "Requests are kept apart for all sequences of events. Entries come before the result if the directory does not call back for a search that has ended. Refuted: the user is that of the bind the directory granted last, not of the client's last bind, and requests go on for clients that are gone and after an abandon."
  },
  {
   "property": "C97",
   "status": "partial",
   "theorems": [
    "C97_requests",
    "C97_responses",
    "C97_agreement",
    "C97_deleted",
    "C97_completes",
    "C97_no_errors",
    "C97_all_complete",
    "C97_abandon_refuted",
    "C97_search_refuted",
    "C97_late_entry_refuted"
   ],
   "note": "Order, agreement and completion for all runs. Every request completes, and no message makes the client raise, if the user keeps to the rules (searches go with a handler that tells results from entries, nothing is abandoned) and the directory calls back for no search that has ended. The refuted theorems show that each of these is needed: an abandon request, a search sent without a handler and a late entry make the client raise. A result that cannot be encoded never comes."
  },
  {
   "property": "C98",
   "status": "partial",
   "theorems": [
    "C98_diff_patch_partial",
    "C98_scripts_refuted",
    "C98_spelling_refuted",
    "C98_octets_refuted",
    "C98_ignored_refuted"
   ],
   "note": "The round trip through both tools is proved for files read as octets, with names and values that are texts, RDNs in lower case, attributes spelled the same in both files, and lines within the limit of the parser. Missing: the scripts open their files as text and raise TypeError on every file; attributes spelled differently lose their values; values that are not texts are not replaced; failed operations are ignored."
  },
  {
   "property": "C99",
   "status": "partial",
   "theorems": [
    "C99_in_order",
    "C99_one_answer",
    "C99_stops",
    "C99_all_answered_partial",
    "C99_refusals",
    "C99_raised_forever",
    "C99_refuted",
    "C99_octets_refuted"
   ],
   "note": "Proved for all runs: answers are sent in the order of the lines, each line has at most one answer and it is the one its own search gives, the process ends exactly when all is answered. All lines are answered unless the connection factory has raised; then no later question is, which is proved for all continuations. Lines are text in the model; as the script stands, LineReceiver raises TypeError on the first octets."
  }
 ]
}