{
 "claims": [
  {
   "property": "C01",
   "status": "proved",
   "theorems": [
    "C01_kv_injective"
   ],
   "note": ""
  },
  {
   "property": "C02",
   "status": "proved",
   "theorems": [
    "C02_white",
    "C02_kv_accepts_exactly",
    "C02_kv_round_trip",
    "C02_kv_parse_total_and_stable",
    "C02_kv_strict_parse_exact",
    "C02_kv_dict"
   ],
   "note": ""
  },
  {
   "property": "C03",
   "status": "proved",
   "theorems": [
    "C03_base64_round_trip",
    "C03_base64_output",
    "C03_base64_injective",
    "C03_base64_decode_total"
   ],
   "note": ""
  },
  {
   "property": "C04",
   "status": "proved",
   "theorems": [
    "C04_int_to_bytes",
    "C04_base64_ints",
    "C04_rejects"
   ],
   "note": ""
  },
  {
   "property": "C05",
   "status": "proved",
   "theorems": [
    "C05_dh_exchange",
    "C05_dh_request_exists",
    "C05_strxor"
   ],
   "note": ""
  },
  {
   "property": "C06",
   "status": "proved",
   "theorems": [
    "C06_round_trip",
    "C06_serialize_refuses",
    "C06_deserialize_exact",
    "C06_errors_are_ValueErrors"
   ],
   "note": ""
  },
  {
   "property": "C07",
   "status": "proved",
   "theorems": [
    "C07_signed_message_verifies",
    "C07_verifies_after_transport"
   ],
   "note": ""
  },
  {
   "property": "C08",
   "status": "proved",
   "theorems": [
    "C08_signature_covers_every_listed_field",
    "C08_changed_field_is_detected"
   ],
   "note": ""
  },
  {
   "property": "C09",
   "status": "proved",
   "theorems": [
    "C09_signing_covers_everything",
    "C09_signing_refuses"
   ],
   "note": ""
  },
  {
   "property": "C10",
   "status": "proved",
   "theorems": [
    "C10_expiry",
    "C10_from_expires_in",
    "C10_only_known_types"
   ],
   "note": ""
  },
  {
   "property": "C11",
   "status": "proved",
   "theorems": [
    "C11_aliases_one_to_one",
    "C11_failure_leaves_map_unchanged",
    "C11_success_adds_exactly_the_pair",
    "C11_success_condition",
    "C11_registry_one_to_one"
   ],
   "note": ""
  },
  {
   "property": "C12",
   "status": "proved",
   "theorems": [
    "C12_add_succeeds"
   ],
   "note": ""
  },
  {
   "property": "C13",
   "status": "proved",
   "theorems": [
    "C13_delete_missing",
    "C13_set_then_get",
    "C13_set_succeeds",
    "C13_delete",
    "C13_update",
    "C13_readers_agree"
   ],
   "note": ""
  },
  {
   "property": "C14",
   "status": "proved",
   "theorems": [
    "C14_parse_exact",
    "C14_parse_succeeds"
   ],
   "note": ""
  },
  {
   "property": "C15",
   "status": "proved",
   "theorems": [
    "C15_aliases_survive",
    "C15_wire_round_trip",
    "C15_every_field_emitted"
   ],
   "note": ""
  },
  {
   "property": "C16",
   "status": "proved",
   "theorems": [
    "C16_version_detection",
    "C16_unknown_version_rejected"
   ],
   "note": ""
  },
  {
   "property": "C17",
   "status": "proved",
   "theorems": [
    "C17_text",
    "C17_round_trip",
    "C17_injective"
   ],
   "note": ""
  },
  {
   "property": "C18",
   "status": "proved",
   "theorems": [
    "C18_window",
    "C18_exact",
    "C18_made_nonce"
   ],
   "note": ""
  },
  {
   "property": "C19",
   "status": "proved",
   "theorems": [
    "C19_useNonce_memory",
    "C19_once_memory"
   ],
   "note": ""
  },
  {
   "property": "C20",
   "status": "proved",
   "theorems": [
    "C20_concurrent",
    "C20_concurrent_cleanup",
    "C20_concurrent_winner",
    "C20_useNonce_file",
    "C20_once_file"
   ],
   "note": ""
  },
  {
   "property": "C21",
   "status": "proved",
   "theorems": [
    "C21_useNonce_sql",
    "C21_once_sql"
   ],
   "note": ""
  },
  {
   "property": "C22",
   "status": "proved",
   "theorems": [
    "C22_get_file",
    "C22_newest_file",
    "C22_remove_file",
    "C22_get_memory",
    "C22_newest_memory",
    "C22_remove_memory",
    "C22_get_sql",
    "C22_newest_sql",
    "C22_remove_sql"
   ],
   "note": ""
  },
  {
   "property": "C23",
   "status": "proved",
   "theorems": [
    "C23_file",
    "C23_sql"
   ],
   "note": ""
  },
  {
   "property": "C24",
   "status": "proved",
   "theorems": [
    "C24_atomic",
    "C24_history",
    "C24_unreadable",
    "C24_power_flushed"
   ],
   "note": ""
  },
  {
   "property": "C25",
   "status": "proved",
   "theorems": [
    "C25_injective",
    "C25_prefix_complete",
    "C25_prefix_sound",
    "C25_inside"
   ],
   "note": ""
  },
  {
   "property": "C26",
   "status": "proved",
   "theorems": [
    "C26_cleanup_associations_file",
    "C26_cleanup_nonces_file",
    "C26_cleanup_associations_memory",
    "C26_cleanup_nonces_memory",
    "C26_cleanup_associations_sql",
    "C26_cleanup_nonces_sql",
    "C26_counts_sql"
   ],
   "note": ""
  },
  {
   "property": "C27",
   "status": "proved",
   "theorems": [
    "C27_exact",
    "C27_sound",
    "C27_directories",
    "C27_ordinary_url"
   ],
   "note": ""
  },
  {
   "property": "C28",
   "status": "proved",
   "theorems": [
    "C28_complete",
    "C28_self_match",
    "C28_wildcard_match",
    "C28_no_exception"
   ],
   "note": "Completeness and self match hold for every parsed realm and URL, absence of exceptions for ordinary URLs (C31); for other texts exceptions do occur, see C73."
  },
  {
   "property": "C29",
   "status": "proved",
   "theorems": [
    "C29_sane_exact",
    "C29_rejects"
   ],
   "note": ""
  },
  {
   "property": "C30",
   "status": "proved",
   "theorems": [
    "C30_dot_segments",
    "C30_never_leaves_the_root",
    "C30_absolute_paths"
   ],
   "note": ""
  },
  {
   "property": "C31",
   "status": "proved",
   "theorems": [
    "C31_shape",
    "C31_ascii_hosts",
    "C31_stable",
    "C31_authority"
   ],
   "note": "C31_shape holds for every accepted URI; C31_stable and C31_authority for every ordinary one (condition on the resulting host name, the user information and the fragment), given an IDNA codec that leaves its results unchanged. Without these conditions the claims are false, see C69 to C71."
  },
  {
   "property": "C32",
   "status": "proved",
   "theorems": [
    "C32_only_listed",
    "C32_redirected_or_empty"
   ],
   "note": ""
  },
  {
   "property": "C33",
   "status": "proved",
   "theorems": [
    "C33_decode_sound",
    "C33_decode_complete",
    "C33_decode_check_authentication"
   ],
   "note": ""
  },
  {
   "property": "C34",
   "status": "proved",
   "theorems": [
    "C34_check_authentication",
    "C34_one_off"
   ],
   "note": ""
  },
  {
   "property": "C35",
   "status": "proved",
   "theorems": [
    "C35_already_signed",
    "C35_assertions_are_signed"
   ],
   "note": ""
  },
  {
   "property": "C36",
   "status": "proved",
   "theorems": [
    "C36_positive_answer",
    "C36_no_answer"
   ],
   "note": ""
  },
  {
   "property": "C37",
   "status": "proved",
   "theorems": [
    "C37_refusal",
    "C37_setup_refusal",
    "C37_no_setup_url"
   ],
   "note": ""
  },
  {
   "property": "C38",
   "status": "proved",
   "theorems": [
    "C38_browser_response",
    "C38_direct_response",
    "C38_error",
    "C38_error_without_message"
   ],
   "note": ""
  },
  {
   "property": "C39",
   "status": "proved",
   "theorems": [
    "C39_decode",
    "C39_reply",
    "C39_answered"
   ],
   "note": ""
  },
  {
   "property": "C40",
   "status": "proved",
   "theorems": [
    "C40_operations",
    "C40_negotiator_consistent",
    "C40_default_negotiators"
   ],
   "note": ""
  },
  {
   "property": "C41",
   "status": "proved",
   "theorems": [
    "C41_success_is_justified"
   ],
   "note": ""
  },
  {
   "property": "C42",
   "status": "proved",
   "theorems": [
    "C42_return_to"
   ],
   "note": ""
  },
  {
   "property": "C43",
   "status": "proved",
   "theorems": [
    "C43_discovered_v2",
    "C43_discovered_v1"
   ],
   "note": ""
  },
  {
   "property": "C44",
   "status": "proved",
   "theorems": [
    "C44_once_memory",
    "C44_once_sql",
    "C44_once_file",
    "C44_none_escapes"
   ],
   "note": ""
  },
  {
   "property": "C45",
   "status": "proved",
   "theorems": [
    "C45_when_complete_raises",
    "C45_other_modes"
   ],
   "note": ""
  },
  {
   "property": "C46",
   "status": "proved",
   "theorems": [
    "C46_negotiation",
    "C46_within_policy",
    "C46_raises_only",
    "C46_association_used"
   ],
   "note": ""
  },
  {
   "property": "C47",
   "status": "proved",
   "theorems": [
    "C47_accepts_only",
    "C47_accepts",
    "C47_refusals"
   ],
   "note": ""
  },
  {
   "property": "C48",
   "status": "proved",
   "theorems": [
    "C48_protocol_field",
    "C48_extension_field",
    "C48_extension",
    "C48_only_signed",
    "C48_only_signed_ns"
   ],
   "note": ""
  },
  {
   "property": "C49",
   "status": "proved",
   "theorems": [
    "C49_request",
    "C49_request_sent",
    "C49_redirect",
    "C49_begin"
   ],
   "note": ""
  },
  {
   "property": "C50",
   "status": "proved",
   "theorems": [
    "C50_refines",
    "C50_in_order_once_each",
    "C50_never_another_url",
    "C50_cleanup_returns_last"
   ],
   "note": "Refinement: every run of getNextService and cleanup calls on a session is a run of a small specification automaton (found list, number handed out); consequences: services in order, once each, never of another URL, cleanup returns the service last served. Discovery is a function parameter per call."
  },
  {
   "property": "C51",
   "status": "proved",
   "theorems": [
    "C51_acceptable",
    "C51_parse",
    "C51_decreasing"
   ],
   "note": "C51_acceptable (ratings, order by 1 - q, the only error), C51_parse (the header is read as what it offers, best first), C51_decreasing (for qualities in thousandths the order is by decreasing quality). What sorted makes of NaN keys is a parameter, any permutation."
  },
  {
   "property": "C52",
   "status": "proved",
   "theorems": [
    "C52_accepts",
    "C52_none",
    "C52_segments"
   ],
   "note": "Stated as an equivalence for accepted identifiers and for None; other chains raise, but see C98 for what."
  },
  {
   "property": "C53",
   "status": "proved",
   "theorems": [
    "C53_conversion",
    "C53_specification_is_a_function",
    "C53_ascii",
    "C53_keeps_normal",
    "C53_decodes"
   ],
   "note": "str.encode and quoting are computed; ASCII, injectivity and decoding proved for all texts that encode."
  },
  {
   "property": "C54",
   "status": "proved",
   "theorems": [
    "C54_parse_exact",
    "C54_request_invariant",
    "C54_constructor",
    "C54_request_round_trip",
    "C54_from_request",
    "C54_request_delivered",
    "C54_extract_exact",
    "C54_response_signed",
    "C54_response_delivered",
    "C54_supports"
   ],
   "note": "Parsing is characterised exactly (which lists are accepted and what they give, strict and lenient), with the invariant of every request reachable by requestField and the constructor, the round trip of arguments (an empty policy_url is sent as none), extractResponse, and delivery of request and response through a message; a response read back takes only signed fields."
  },
  {
   "property": "C55",
   "status": "proved",
   "theorems": [
    "C55_fetch_parse",
    "C55_values_parse",
    "C55_values_given",
    "C55_store_round_trip",
    "C55_request_invariant",
    "C55_fetch_total",
    "C55_fetch_round_trip",
    "C55_response_limited",
    "C55_response_decides",
    "C55_response_round_trip",
    "C55_fetch_delivered",
    "C55_response_delivered",
    "C55_response_signed",
    "C55_update_url_matches"
   ],
   "note": "Parsing of fetch requests and of key-value messages is characterised for every dictionary of arguments; store requests, fetch requests and fetch responses round trip, alone and inside delivered messages; a response never exceeds its request; only signed arguments are read; an update URL read by a server matches the realm. Side conditions: aliases that can be sent (C115 shows the one the code misses), and the empty alias is excluded."
  },
  {
   "property": "C56",
   "status": "proved",
   "theorems": [
    "C56_words",
    "C56_request_parse",
    "C56_request_strict",
    "C56_request_total",
    "C56_request_round_trip",
    "C56_request_delivered",
    "C56_preferred",
    "C56_level_alias",
    "C56_time",
    "C56_response_parse",
    "C56_response_strict",
    "C56_response_total",
    "C56_response_round_trip",
    "C56_response_signed",
    "C56_response_delivered",
    "C56_pape2_request",
    "C56_pape2_response",
    "C56_policies_once"
   ],
   "note": "pape.py and draft/pape2.py. A response that is read may repeat a policy (C120)."
  },
  {
   "property": "C57",
   "status": "proved",
   "theorems": [
    "C57_arrange",
    "C57_providers_first",
    "C57_supports"
   ],
   "note": "Statement says what the code does; the documented order is C99 (refuted)."
  },
  {
   "property": "C58",
   "status": "proved",
   "theorems": [
    "C58_consumer_accepts",
    "C58_assertion",
    "C58_shared_association",
    "C58_confirmation",
    "C58_stateless",
    "C58_received_by_page"
   ],
   "note": "The provider decodes any request, answers yes and encodes; the browser follows the redirect or submits the form; the consumer completes with Success, all parameters signed: C58_shared_association with an association both hold, C58_stateless through check_authentication against the provider's own reply. Assertions as the server builds them, without extension fields added by the application. Discovery is a parameter of the consumer."
  },
  {
   "property": "C59",
   "status": "proved",
   "theorems": [
    "C59_accepted_was_asserted"
   ],
   "note": "For every sequence of exchanges of the provider and every query the consumer accepts, in smart or dumb mode. Unforgeability is a premise about the accepted query only: if its signature is good under a key the two sides hold, the provider made a signature over the same text. The conclusion names the request, the yes of the application, and compares return_to, identity, and for OpenID 2 claimed_id, op_endpoint and response_nonce. Extensions may be added to answers."
  },
  {
   "property": "C60",
   "status": "proved",
   "theorems": [
    "C60_delivered",
    "C60_receiver",
    "C60_accepts_exactly_unicode_text",
    "C60_message_url",
    "C60_message_body"
   ],
   "note": ""
  },
  {
   "property": "C61",
   "status": "proved",
   "theorems": [
    "C61_priority_order",
    "C61_ties_keep_shuffle_order"
   ],
   "note": "The shuffle is an arbitrary permutation; equal priorities keep the shuffled order."
  },
  {
   "property": "C62",
   "status": "proved",
   "theorems": [
    "C62_curl",
    "C62_refuses",
    "C62_ends",
    "C62_in_time",
    "C62_followed"
   ],
   "note": "C62_curl (all requests and the answer), C62_followed (the converse), C62_ends and C62_in_time (time), C62_refuses. The network and the clock are parameters."
  },
  {
   "property": "C63",
   "status": "partial",
   "theorems": [
    "C63_mask_hashes_btwoc_refuted",
    "C63_mask_hashes_btwoc_partial",
    "C63_mask_hashes_btwoc_exactly",
    "C63_xor_secret_mask"
   ],
   "note": "Refuted for shared numbers with nine leading zero bits at the length of the modulus; C63_mask_hashes_btwoc_exactly proves that these are the only ones."
  },
  {
   "property": "C64",
   "status": "partial",
   "theorems": [
    "C64_parse_keeps_every_parameter_refuted"
   ],
   "note": "Refuted: a namespace literally called 'sreg' loses parameters. C14 proves the property for all other queries."
  },
  {
   "property": "C65",
   "status": "partial",
   "theorems": [
    "C65_every_message_survives_the_wire_refuted"
   ],
   "note": "Refuted by keys that mimic namespace declarations. C15 proves the round trip for wire-safe messages."
  },
  {
   "property": "C66",
   "status": "partial",
   "theorems": [
    "C66_extension_can_be_added_again_refuted",
    "C66_extension_can_be_added_again_partial"
   ],
   "note": "Refuted for OpenID 1 (AssertionError). Proved for OpenID 2 messages and namespaces not already implicit."
  },
  {
   "property": "C67",
   "status": "partial",
   "theorems": [
    "C67_signed_message_always_verifies_refuted"
   ],
   "note": "Refuted by a parameter called 'x,sig'. C07 proves the property under a condition on names."
  },
  {
   "property": "C68",
   "status": "partial",
   "theorems": [
    "C68_added_empty_field_is_detected_refuted"
   ],
   "note": "Refuted: an absent field is signed as the empty string. C08 proves detection for every change of value."
  },
  {
   "property": "C69",
   "status": "partial",
   "theorems": [
    "C69_stable_refuted",
    "C69_fragment_refuted"
   ],
   "note": "False as stated: refuted by http://%41.com/ and by http://a.com/#%2541."
  },
  {
   "property": "C70",
   "status": "partial",
   "theorems": [
    "C70_result_accepted_refuted"
   ],
   "note": "False as stated: refuted by http://[::1]/, whose brackets are dropped."
  },
  {
   "property": "C71",
   "status": "partial",
   "theorems": [
    "C71_host_preserved_refuted"
   ],
   "note": "False as stated: refuted by http://good.com%2F.evil.com/."
  },
  {
   "property": "C72",
   "status": "partial",
   "theorems": [
    "C72_fragment_refuted"
   ],
   "note": "False as stated: refuted by http://a/#frag."
  },
  {
   "property": "C73",
   "status": "partial",
   "theorems": [
    "C73_no_exception_refuted"
   ],
   "note": "False as stated: refuted by http://:80/ (AttributeError, TypeError) and http://[::1]/ (ValueError)."
  },
  {
   "property": "C74",
   "status": "proved",
   "theorems": [
    "C74_server_session_parameters"
   ],
   "note": ""
  },
  {
   "property": "C75",
   "status": "proved",
   "theorems": [
    "C75_secret_fits_session",
    "C75_mask_has_room"
   ],
   "note": ""
  },
  {
   "property": "C76",
   "status": "partial",
   "theorems": [
    "C76_same_second_refuted"
   ],
   "note": "Refuted by an explicit history; C22_newest_sql shows that associations issued in the same second are the only way."
  },
  {
   "property": "C77",
   "status": "partial",
   "theorems": [
    "C77_memory_refuted"
   ],
   "note": "Refuted: the memory store does not look at the lifetime in getAssociation. C22_get_memory says exactly what it returns."
  },
  {
   "property": "C78",
   "status": "partial",
   "theorems": [
    "C78_outside_refuted",
    "C78_prefix_refuted"
   ],
   "note": "Refuted by explicit URLs for both parts; C25 has the positive statement."
  },
  {
   "property": "C79",
   "status": "partial",
   "theorems": [
    "C79_boundary_refuted"
   ],
   "note": "Refuted at the second of expiry; C26 has the positive statement."
  },
  {
   "property": "C80",
   "status": "partial",
   "theorems": [
    "C80_mysql_associations_refuted",
    "C80_mysql_nonces_refuted"
   ],
   "note": "Refuted for both tables by two URLs sharing 255 bytes."
  },
  {
   "property": "C81",
   "status": "partial",
   "theorems": [
    "C81_power_refuted",
    "C81_windows_refuted"
   ],
   "note": "Refuted by explicit interruption points; C24_power_flushed shows that flushing before fsync would repair the first."
  },
  {
   "property": "C82",
   "status": "partial",
   "theorems": [
    "C82_stalled_refuted"
   ],
   "note": "Refuted by an explicit schedule; C20 has the positive statement."
  },
  {
   "property": "C83",
   "status": "partial",
   "theorems": [
    "C83_every_request_can_be_refused_refuted"
   ],
   "note": "False of the code; the refuted theorem exhibits an OpenID 1 immediate request (ProtocolError) and an OpenID 2 immediate request without identifier (AssertionError)."
  },
  {
   "property": "C84",
   "status": "partial",
   "theorems": [
    "C84_refusals_are_not_signed_refuted"
   ],
   "note": "False of the code; the refuted theorem exhibits the OpenID 1 immediate refusal, which is signed."
  },
  {
   "property": "C85",
   "status": "partial",
   "theorems": [
    "C85_decoder_raises_only_protocol_errors_refuted"
   ],
   "note": "False of the code; three queries raise AssertionError, AttributeError and ValueError."
  },
  {
   "property": "C86",
   "status": "partial",
   "theorems": [
    "C86_answer_reaches_relying_party_refuted"
   ],
   "note": "False of the code; the witness is a return_to ending in '#'. C38_browser_response: without '#' in the return_to the response arrives in the query."
  },
  {
   "property": "C87",
   "status": "partial",
   "theorems": [
    "C87_bad_public_key_is_a_protocol_error_refuted"
   ],
   "note": "False of the code; an empty and an out of group public key give a ValueError after the association was stored."
  },
  {
   "property": "C88",
   "status": "partial",
   "theorems": [
    "C88_return_path_refuted"
   ],
   "note": "Refuted: 'http://rp/back;user=2' is accepted at 'http://rp/back;user=1'. What does hold is C42."
  },
  {
   "property": "C89",
   "status": "partial",
   "theorems": [
    "C89_claimed_id_refuted"
   ],
   "note": "Refuted: with an endpoint for 'http://a/b' the response for 'HTTP://a/b?#x' succeeds and is reported under that identifier. What does hold is C43: the output of urldefrag is the discovered identifier."
  },
  {
   "property": "C90",
   "status": "partial",
   "theorems": [
    "C90_complete_returns_refuted"
   ],
   "note": "Refuted: six concrete responses on which complete raises ValueError, KeyError, RuntimeError or UnicodeDecodeError. What does hold is C45."
  },
  {
   "property": "C91",
   "status": "partial",
   "theorems": [
    "C91_policy_refuted"
   ],
   "note": "Refuted: an OpenID 2 endpoint that answers a DH-SHA1 request without openid.ns and with a plain mac_key gets its key accepted by a consumer restricted to encrypted sessions. What does hold is C46_within_policy."
  },
  {
   "property": "C92",
   "status": "partial",
   "theorems": [
    "C92_begin_returns_refuted"
   ],
   "note": "Refuted: replies for which begin raises UnicodeDecodeError, InvalidOpenIDNamespace and AssertionError, and TypeError with an empty negotiator. C46_raises_only lists all causes."
  },
  {
   "property": "C93",
   "status": "partial",
   "theorems": [
    "C93_usable_refuted"
   ],
   "note": "Refuted: an empty mac_key and expires_in -5 are accepted, stored and used. What does hold is C47."
  },
  {
   "property": "C94",
   "status": "partial",
   "theorems": [
    "C94_signed_meaning_refuted"
   ],
   "note": "Refuted: two responses that differ only in openid.ns.x both succeed and read the signed value under different extensions. What does hold is C48."
  },
  {
   "property": "C95",
   "status": "partial",
   "theorems": [
    "C95_no_return_to",
    "C95_optional_return_to_refuted"
   ],
   "note": "Refuted: C95_no_return_to shows that no prepared request of any version can be made without return_to; two concrete cases raise ValueError and AssertionError."
  },
  {
   "property": "C96",
   "status": "proved",
   "theorems": [
    "C96_endpoint_of_last_request",
    "C96_next_service",
    "C96_services_after_response"
   ],
   "note": "Calls are interleaved arbitrarily, each with its own time, negotiator and randomness; discovery, server and store are parameters."
  },
  {
   "property": "C97",
   "status": "partial",
   "theorems": [
    "C97_cancel_forgets_services_refuted"
   ],
   "note": "Refuted: cancelling at a provider-selected identity keeps the manager in the session, so the next begin goes to the second service. C96_services_after_response: it holds whenever the endpoint has a claimed identifier."
  },
  {
   "property": "C98",
   "status": "partial",
   "theorems": [
    "C98_bad_chain_is_XRDSError_refuted"
   ],
   "note": "Refuted: ValueError, AttributeError and IndexError escape."
  },
  {
   "property": "C99",
   "status": "partial",
   "theorems": [
    "C99_only_providers_refuted",
    "C99_preferred_first_refuted",
    "C99_documented_exactly"
   ],
   "note": "Refuted: non-provider services follow the provider ones, and without any the preference order is not applied. C99_documented_exactly says for which services the documentation is right."
  },
  {
   "property": "C100",
   "status": "proved",
   "theorems": [
    "C100_local_identifier",
    "C100_agreed_is_a_function"
   ],
   "note": "Also shows that the specification determines the result."
  },
  {
   "property": "C101",
   "status": "proved",
   "theorems": [
    "C101_rel_is_a_word_list",
    "C101_links_of_a_page"
   ],
   "note": "lxml is a function parameter; XPath normalize-space and contains are computed."
  },
  {
   "property": "C102",
   "status": "proved",
   "theorems": [
    "C102_requests"
   ],
   "note": "Fetcher, parsers, decoder and shuffle are arbitrary functions."
  },
  {
   "property": "C103",
   "status": "proved",
   "theorems": [
    "C103_claimed_identifier"
   ],
   "note": "Holds for every behaviour of the fetcher, parsers, decoder and shuffle."
  },
  {
   "property": "C104",
   "status": "partial",
   "theorems": [
    "C104_only_web_requests_refuted"
   ],
   "note": "Refuted: a file: location from a header is handed to the fetcher."
  },
  {
   "property": "C105",
   "status": "partial",
   "theorems": [
    "C105_same_claimed_identifier_refuted",
    "C105_same_claimed_identifier_exactly"
   ],
   "note": "Refuted: the endpoint keeps the address as it is, for example with a fragment. C105_same_claimed_identifier_exactly: it holds exactly if the final address is its own normal form."
  },
  {
   "property": "C106",
   "status": "proved",
   "theorems": [
    "C106_services_of_a_document",
    "C106_not_a_document"
   ],
   "note": "Membership of endpoints; their order follows from C61 per list."
  },
  {
   "property": "C107",
   "status": "proved",
   "theorems": [
    "C107_endpoints_by_XRI",
    "C107_requests"
   ],
   "note": "str.lower is a parameter."
  },
  {
   "property": "C108",
   "status": "partial",
   "theorems": [
    "C108_own_identifier_refuted"
   ],
   "note": "Refuted with two proxy answers that have different canonical identifiers."
  },
  {
   "property": "C109",
   "status": "partial",
   "theorems": [
    "C109_unclosed_bracket_refuted",
    "C109_unknown_charset_refuted",
    "C109_empty_type_refuted"
   ],
   "note": "Refuted in three ways."
  },
  {
   "property": "C110",
   "status": "proved",
   "theorems": [
    "C110_type_error",
    "C110_order",
    "C110_first_callable_wins"
   ],
   "note": ""
  },
  {
   "property": "C111",
   "status": "partial",
   "theorems": [
    "C111_sreg_version_survives_refuted"
   ],
   "note": "Refuted: a 1.0 request in an OpenID 1 message is read back as 1.1."
  },
  {
   "property": "C112",
   "status": "partial",
   "theorems": [
    "C112_update_url_sent_refuted"
   ],
   "note": "Refuted: the update URL of a fetch request is never sent. C55 proves the round trip of everything else."
  },
  {
   "property": "C113",
   "status": "partial",
   "theorems": [
    "C113_store_response_sent",
    "C113_store_response_read_refuted"
   ],
   "note": "Refuted: for every message the call raises AttributeError. C113_store_response_sent proves what is sent."
  },
  {
   "property": "C114",
   "status": "partial",
   "theorems": [
    "C114_ax_errors_refuted"
   ],
   "note": "Refuted: AssertionError for an alias that is a protocol field, AttributeError for unsigned arguments. C55 lists exactly which arguments are accepted."
  },
  {
   "property": "C115",
   "status": "partial",
   "theorems": [
    "C115_distinct_aliases_refuted"
   ],
   "note": "Refuted by an explicit alias equal to a generated one. C55_fetch_total gives the condition under which a request can be sent."
  },
  {
   "property": "C116",
   "status": "partial",
   "theorems": [
    "C116_no_signed_args_exactly",
    "C116_no_signed_args_refuted"
   ],
   "note": "Refuted: a message without PAPE arguments gives an empty response. C116_no_signed_args_exactly: None is returned exactly if an argument is not signed."
  },
  {
   "property": "C117",
   "status": "partial",
   "theorems": [
    "C117_lenient_parsing_refuted"
   ],
   "note": "Refuted: KeyError when nist or jisa is defined again. C56_request_parse and C56_response_parse: that is the only case."
  },
  {
   "property": "C118",
   "status": "partial",
   "theorems": [
    "C118_time_format_refuted"
   ],
   "note": "Refuted: 2026-13-32T25:61:99Z with a newline is accepted. C56_time says exactly what is accepted."
  },
  {
   "property": "C119",
   "status": "partial",
   "theorems": [
    "C119_nist_level_exactly",
    "C119_nist_level_refuted"
   ],
   "note": "Refuted: ValueError for the level high. C119_nist_level_exactly says exactly when the accessor raises."
  },
  {
   "property": "C120",
   "status": "partial",
   "theorems": [
    "C120_policy_once_exactly",
    "C120_policy_once_refuted"
   ],
   "note": "Refuted by the policies of 'urn:p urn:p'. C120_policy_once_exactly says for which messages it holds; requests and addPolicyURI: C56_policies_once."
  },
  {
   "property": "C121",
   "status": "partial",
   "theorems": [
    "C121_decreasing_refuted"
   ],
   "note": "Refuted: C121_decreasing_refuted, 1e-20 and 1e-19 are taken for equal."
  },
  {
   "property": "C122",
   "status": "proved",
   "theorems": [
    "C122_generate",
    "C122_refused"
   ],
   "note": "C122_generate for floats in their canonical form; C122_refused for the error."
  },
  {
   "property": "C123",
   "status": "partial",
   "theorems": [
    "C123_positive_refuted"
   ],
   "note": "Refuted: 0.04 is sent as 0.0."
  },
  {
   "property": "C124",
   "status": "partial",
   "theorems": [
    "C124_range_refuted"
   ],
   "note": "Refuted: a NaN passes both comparisons. C122_refused says exactly what is refused."
  },
  {
   "property": "C125",
   "status": "proved",
   "theorems": [
    "C125_headers",
    "C125_lower_names"
   ],
   "note": "C125_headers, C125_lower_names."
  },
  {
   "property": "C126",
   "status": "partial",
   "theorems": [
    "C126_interim_refuted"
   ],
   "note": "Refuted: an interim answer with headers of its own makes the fetch fail."
  },
  {
   "property": "C127",
   "status": "proved",
   "theorems": [
    "C127_body_limit"
   ],
   "note": "C127_body_limit."
  },
  {
   "property": "C128",
   "status": "partial",
   "theorems": [
    "C128_body_bound",
    "C128_body_refuted"
   ],
   "note": "Refuted: the size is checked before a chunk is added. C128_body_bound: the excess is one chunk at the most."
  },
  {
   "property": "C129",
   "status": "partial",
   "theorems": [
    "C129_final_url_refuted"
   ],
   "note": "Refuted: the URL asked for is the normal form; ?user=&x=1 is asked for as ?x=1."
  },
  {
   "property": "C130",
   "status": "partial",
   "theorems": [
    "C130_redirects_refuted"
   ],
   "note": "Refuted: any number of redirects is followed while time is left. C62_ends: the time on the clock bounds the number."
  },
  {
   "property": "C131",
   "status": "partial",
   "theorems": [
    "C131_relative_refuted"
   ],
   "note": "Refuted: HTTPError."
  },
  {
   "property": "C132",
   "status": "proved",
   "theorems": [
    "C132_libraries",
    "C132_answers"
   ],
   "note": "C132_libraries, C132_answers. Redirects inside the libraries are theirs."
  },
  {
   "property": "C133",
   "status": "partial",
   "theorems": [
    "C133_requests_scheme_refuted"
   ],
   "note": "Refuted: file:///etc/passwd is passed on."
  },
  {
   "property": "C134",
   "status": "partial",
   "theorems": [
    "C134_empty_body_refuted"
   ],
   "note": "Refuted: b'' is sent with GET by two of the fetchers. C132_libraries: every other body is sent with POST."
  },
  {
   "property": "C135",
   "status": "partial",
   "theorems": [
    "C135_header_names_refuted"
   ],
   "note": "Refuted: names are kept as the server wrote them."
  },
  {
   "property": "C136",
   "status": "proved",
   "theorems": [
    "C136_preference",
    "C136_default",
    "C136_using_curl"
   ],
   "note": "C136_preference, C136_default, C136_using_curl."
  },
  {
   "property": "C137",
   "status": "proved",
   "theorems": [
    "C137_verified",
    "C137_accepts",
    "C137_requests",
    "C137_request"
   ],
   "note": "C137_verified (only if), C137_accepts (if, for a document at the discovery URL, with types that are texts and listed URLs that can be parsed), C137_requests, C137_request."
  },
  {
   "property": "C138",
   "status": "partial",
   "theorems": [
    "C138_redirected_document_refuted"
   ],
   "note": "Refuted: only the page is checked, not the location it names."
  },
  {
   "property": "C139",
   "status": "partial",
   "theorems": [
    "C139_errors_refuted"
   ],
   "note": "Refuted: AssertionError for http://*/, AttributeError for an empty Type element."
  },
  {
   "property": "C140",
   "status": "proved",
   "theorems": [
    "C140_atomic",
    "C140_pattern"
   ],
   "note": "SqlTxn.v models the stores statement by statement; the database executes statements as Store.v says, and failing calls raise OperationalError (with no message about unique columns). PostgreSQL's tables agree up to the order of rows."
  },
  {
   "property": "C141",
   "status": "proved",
   "theorems": [
    "C141_history",
    "C141_once",
    "C141_answers"
   ],
   "note": "C141_history covers the dialects with REPLACE with equality of tables; C141_once and C141_answers all dialects whose key is the whole URL (SQLite, PostgreSQL)."
  },
  {
   "property": "C142",
   "status": "partial",
   "theorems": [
    "C142_raise_keeps_nonce_refuted"
   ],
   "note": "refuted: the commit may be carried out and reported as failed"
  },
  {
   "property": "C143",
   "status": "proved",
   "theorems": [
    "C143_writes",
    "C143_once",
    "C143_once_cleanup",
    "C143_committed"
   ],
   "note": "Locks are row locks held until the transaction ends; coarser locks allow fewer schedules. Isolation: statements see what is committed and their own changes."
  },
  {
   "property": "C144",
   "status": "proved",
   "theorems": [
    "C144_working"
   ],
   "note": "dialects with REPLACE that report duplicates with IntegrityError"
  },
  {
   "property": "C145",
   "status": "partial",
   "theorems": [
    "C145_postgresql_store_refuted"
   ],
   "note": "refuted: SELECT, SELECT, INSERT, INSERT"
  },
  {
   "property": "C146",
   "status": "partial",
   "theorems": [
    "C146_stalled_refuted"
   ],
   "note": "refuted; C143_once_cleanup is the claim with the proviso"
  },
  {
   "property": "C147",
   "status": "proved",
   "theorems": [
    "C147_writable"
   ],
   "note": "C147_writable, an equivalence. XML names beyond ASCII and Clark notation are simplified (Html.v)."
  },
  {
   "property": "C148",
   "status": "proved",
   "theorems": [
    "C148_read"
   ],
   "note": "C148_read, against the tokenizer of HtmlSpec.v."
  },
  {
   "property": "C149",
   "status": "proved",
   "theorems": [
    "C149_posted",
    "C149_exact",
    "C149_message"
   ],
   "note": "C149_posted for all messages; C149_exact and C149_message without line ends, empty names and '_charset_'."
  },
  {
   "property": "C150",
   "status": "proved",
   "theorems": [
    "C150_submits_itself",
    "C150_no_argument_submit"
   ],
   "note": "C150_submits_itself (equivalence), C150_no_argument_submit."
  },
  {
   "property": "C151",
   "status": "partial",
   "theorems": [
    "C151_page_submits_itself_refuted"
   ],
   "note": "False: a bare argument 'submit' (C151_page_submits_itself_refuted)."
  },
  {
   "property": "C152",
   "status": "partial",
   "theorems": [
    "C152_values_unchanged_refuted"
   ],
   "note": "False: a line feed arrives as CR LF (C152_values_unchanged_refuted)."
  },
  {
   "property": "C153",
   "status": "partial",
   "theorems": [
    "C153_defaults_overridden_refuted"
   ],
   "note": "False: both are always overwritten (C153_defaults_overridden_refuted, for every message)."
  },
  {
   "property": "C154",
   "status": "partial",
   "theorems": [
    "C154_action_replaced_refuted"
   ],
   "note": "False: an attribute 'ACTION' stays and comes first (C154_action_replaced_refuted)."
  },
  {
   "property": "C155",
   "status": "proved",
   "theorems": [
    "C155_response_page",
    "C155_response_page_web",
    "C155_error_page",
    "C155_request_page"
   ],
   "note": "C155_response_page, C155_response_page_web, C155_error_page, C155_request_page."
  },
  {
   "property": "C156",
   "status": "partial",
   "theorems": [
    "C156_answer_can_be_written_refuted"
   ],
   "note": "False: lxml refuses control characters that URLs may hold (C156_answer_can_be_written_refuted)."
  },
  {
   "property": "C157",
   "status": "partial",
   "theorems": [
    "C157_error_page_to_web_refuted"
   ],
   "note": "False: a malformed return_to becomes the action of a page that submits itself, here a javascript: URL (C157_error_page_to_web_refuted)."
  },
  {
   "property": "C158",
   "status": "proved",
   "theorems": [
    "C158_confirmed",
    "C158_later_checks"
   ],
   "note": "For every store that keeps associations (keeps_memory, keeps_sql, keeps_file in ServerStores.v)."
  },
  {
   "property": "C159",
   "status": "proved",
   "theorems": [
    "C159_signed"
   ],
   "note": "Responses whose parameter names contain no 'sig' (as in C35)."
  },
  {
   "property": "C160",
   "status": "partial",
   "theorems": [
    "C160_once_refuted"
   ],
   "note": "Refuted: CheckAuthRequest.answer looks up and removes in two store calls and does not use the result of the removal."
  },
  {
   "property": "C161",
   "status": "proved",
   "theorems": [
    "C161_once_memory",
    "C161_once_sql",
    "C161_once_file",
    "C161_none_escapes"
   ],
   "note": "Queries with at least one form of namespace as in C41 (fair_query); for the SQL and file stores over the texts they can hold."
  },
  {
   "property": "C162",
   "status": "proved",
   "theorems": [
    "C162_justified"
   ],
   "note": "For every store that keeps associations (keeps_memory, keeps_sql, keeps_file in ServerStores.v)."
  },
  {
   "property": "C163",
   "status": "proved",
   "theorems": [
    "C163_answers_stored"
   ],
   "note": "system calls atomic; failing calls have no effect; renaming within a file system"
  },
  {
   "property": "C164",
   "status": "proved",
   "theorems": [
    "C164_no_exceptions"
   ],
   "note": "system calls atomic; failing calls have no effect; renaming within a file system"
  },
  {
   "property": "C165",
   "status": "proved",
   "theorems": [
    "C165_no_litter"
   ],
   "note": "system calls atomic; failing calls have no effect; renaming within a file system"
  },
  {
   "property": "C166",
   "status": "proved",
   "theorems": [
    "C166_atomic"
   ],
   "note": "system calls atomic; failing calls have no effect; renaming within a file system"
  },
  {
   "property": "C167",
   "status": "proved",
   "theorems": [
    "C167_visible"
   ],
   "note": "system calls atomic; failing calls have no effect; renaming within a file system"
  },
  {
   "property": "C168",
   "status": "proved",
   "theorems": [
    "C168_nonce_once"
   ],
   "note": "system calls atomic; failing calls have no effect; renaming within a file system"
  },
  {
   "property": "C169",
   "status": "partial",
   "theorems": [
    "C169_lost_refuted"
   ],
   "note": "refuted: a lookup that found an expired predecessor deletes the file that replaced it"
  },
  {
   "property": "C170",
   "status": "partial",
   "theorems": [
    "C170_windows_refuted"
   ],
   "note": "refuted: the second rename is refused if another writer comes between; C164 holds where renaming replaces"
  },
  {
   "property": "C171",
   "status": "partial",
   "theorems": [
    "C171_replay_refuted"
   ],
   "note": "refuted: cleanup in between; C168 says that this is the only way"
  },
  {
   "property": "C172",
   "status": "proved",
   "theorems": [
    "C172_atomic"
   ],
   "note": "SqlConc.v's database: row locks, statements see what is committed; keys hold the whole URL; commits that are carried out are not reported as failed."
  },
  {
   "property": "C173",
   "status": "proved",
   "theorems": [
    "C173_visible"
   ],
   "note": "SqlConc.v's database: row locks, statements see what is committed; keys hold the whole URL; commits that are carried out are not reported as failed."
  },
  {
   "property": "C174",
   "status": "proved",
   "theorems": [
    "C174_nonce_once"
   ],
   "note": "SqlConc.v's database: row locks, statements see what is committed; keys hold the whole URL; commits that are carried out are not reported as failed."
  },
  {
   "property": "C175",
   "status": "partial",
   "theorems": [
    "C175_lost_refuted"
   ],
   "note": "refuted: txn_getAssociation of process 2 has read an expired row, process 3 stores its successor, process 2 deletes it by its key."
  },
  {
   "property": "C176",
   "status": "partial",
   "theorems": [
    "C176_postgresql_lost_refuted"
   ],
   "note": "refuted: db_set_assoc finds the expired row, a cleanup deletes it, the UPDATE affects no row and storeAssociation returns."
  },
  {
   "property": "C177",
   "status": "proved",
   "theorems": [
    "C177_where"
   ],
   "note": "bytes.decode, the HTML parser and the headers are parameters."
  },
  {
   "property": "C178",
   "status": "proved",
   "theorems": [
    "C178_who_is_asked",
    "C178_no_address"
   ],
   "note": "str.lower, the web, the parsers and the shuffle are parameters."
  },
  {
   "property": "C179",
   "status": "proved",
   "theorems": [
    "C179_expiration",
    "C179_round_trip"
   ],
   "note": "datetime values are their six fields; decimal digits outside ASCII are a parameter."
  },
  {
   "property": "C180",
   "status": "partial",
   "theorems": [
    "C180_empty_refuted",
    "C180_fraction_refuted"
   ],
   "note": "refuted: an empty element raises TypeError; fractions of seconds are refused with ValueError."
  },
  {
   "property": "C181",
   "status": "proved",
   "theorems": [
    "C181_versions",
    "C181_read",
    "C181_reserved",
    "C181_services",
    "C181_op_url",
    "C181_any_identifier",
    "C181_default_group",
    "C181_default_left_out",
    "C181_profile_fields",
    "C181_extension_sent",
    "C181_sreg_namespace",
    "C181_levels",
    "C181_no_policy",
    "C181_session_keys"
   ],
   "note": "The constants of the model are tied to the literals of the specifications through the decisions that use them."
  },
  {
   "property": "C182",
   "status": "proved",
   "theorems": [
    "C182_once",
    "C182_once_without_cleanup"
   ],
   "note": "Follows from C166/C172 (calls of both stores are atomic) and the call sequence of a visit. MySQL and PostgreSQL are not covered. Handles: for an empty handle the association need not have been stored under it (C183)."
  },
  {
   "property": "C183",
   "status": "proved",
   "theorems": [
    "C183_justified"
   ],
   "note": "Follows from C166/C172 (calls of both stores are atomic) and the call sequence of a visit. MySQL and PostgreSQL are not covered. Handles: for an empty handle the association need not have been stored under it (C183)."
  },
  {
   "property": "C184",
   "status": "proved",
   "theorems": [
    "C184_confirmed",
    "C184_signed"
   ],
   "note": "Follows from C166/C172 and the call sequence of the jobs. For an empty handle nothing is said about where the association comes from. MySQL and PostgreSQL are not covered."
  },
  {
   "property": "C185",
   "status": "proved",
   "theorems": [
    "C185_confirmed_once"
   ],
   "note": "That overlapping checks are both answered yes remains possible (C160)."
  },
  {
   "property": "C186",
   "status": "proved",
   "theorems": [
    "C186_caught"
   ],
   "note": "C186_caught, by comparison with the class tree."
  },
  {
   "property": "C187",
   "status": "proved",
   "theorems": [
    "C187_accepted_was_asserted"
   ],
   "note": "C187_accepted_was_asserted; composes C183, C184's logs and C59's reading of signatures."
  },
  {
   "property": "C188",
   "status": "proved",
   "theorems": [
    "C188_accepts",
    "C188_refuses"
   ],
   "note": ""
  },
  {
   "property": "C189",
   "status": "proved",
   "theorems": [
    "C189_confirmed",
    "C189_signed"
   ],
   "note": ""
  },
  {
   "property": "C190",
   "status": "proved",
   "theorems": [
    "C190_first_use",
    "C190_accepted",
    "C190_confirmed"
   ],
   "note": ""
  },
  {
   "property": "C191",
   "status": "proved",
   "theorems": [
    "C191_login",
    "C191_login_stateless"
   ],
   "note": ""
  }
 ]
}