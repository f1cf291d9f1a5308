{
 "claims": [
  {
   "property": "C01",
   "status": "proved",
   "theorems": [
    "dispatch_fail_closed",
    "dispatch_empty_denies",
    "no_success_without_module_success",
    "audit_never_grants"
   ],
   "note": "For any history of management calls on an idle handle, any modules, flags, audit outcomes and allocation failures."
  },
  {
   "property": "C02",
   "status": "proved",
   "theorems": [
    "substack_semantics",
    "substack_semantics_for_tree"
   ],
   "note": "Refinement of the loop on flat handler lists to a recursive evaluator on trees of items; every well-levelled list is such a tree."
  },
  {
   "property": "C03",
   "status": "proved",
   "theorems": [
    "keyword_stack_meaning",
    "kw_result_success",
    "kw_result_first_failure"
   ],
   "note": "For ordinary (non-frozen) calls in which no module suspends; suspension is covered by C04."
  },
  {
   "property": "C04",
   "status": "proved",
   "theorems": [
    "resume_is_transparent",
    "answered_modules_not_rerun"
   ],
   "note": ""
  },
  {
   "property": "C05",
   "status": "proved",
   "theorems": [
    "only_suspended_call_resumable"
   ],
   "note": "With libaudit reporting an error the code is PAM_SYSTEM_ERR instead of PAM_ABORT; the state is unchanged in all cases."
  },
  {
   "property": "C06",
   "status": "partial",
   "theorems": [
    "frozen_chain_same_modules_refuted",
    "frozen_chain_same_modules"
   ],
   "note": "False as stated (a setcred function returning PAM_IGNORE lets the chain go on); proved when the second pass never returns PAM_IGNORE or PAM_INCOMPLETE and the first never returns -1."
  },
  {
   "property": "C07",
   "status": "proved",
   "theorems": [
    "dispatch_no_undefined_behaviour"
   ],
   "note": "For every history of calls over stacks satisfying stack_ok."
  },
  {
   "property": "C08",
   "status": "proved",
   "theorems": [
    "fatal_answers_never_succeed",
    "room_is_remaining_items"
   ],
   "note": "For the non-frozen functions; on frozen chains the cached jump is used."
  },
  {
   "property": "C09",
   "status": "proved",
   "theorems": [
    "fatal_answers_never_succeed",
    "odd_answers_count_as_denied"
   ],
   "note": ""
  },
  {
   "property": "C10",
   "status": "proved",
   "theorems": [
    "control_list_meaning",
    "control_garbage_all_bad",
    "jump_numbers_exact",
    "control_total"
   ],
   "note": "Grammar relation in Ctl_Spec.v; later explicit entries override, the first default fills the rest."
  },
  {
   "property": "C11",
   "status": "proved",
   "theorems": [
    "keywords_are_their_bracket_forms",
    "include_words"
   ],
   "note": "In any letter case."
  },
  {
   "property": "C12",
   "status": "proved",
   "theorems": [
    "arguments_round_trip",
    "every_list_can_be_written",
    "splitting_is_safe",
    "one_token_is_safe",
    "every_list_can_be_passed_refuted"
   ],
   "note": "Memory-level model of the tokenizer; the refuted theorem records that some argument lists (a blank and a final backslash in a non-final argument) have no written form at all."
  },
  {
   "property": "C13",
   "status": "proved",
   "theorems": [
    "loading_terminates",
    "loaded_stacks_are_safe",
    "failed_include_leaves_failure"
   ],
   "note": "Every configuration, cyclic or not. pam.conf is assumed to be delivered by getline (no newline inside a line)."
  },
  {
   "property": "C14",
   "status": "partial",
   "theorems": [
    "malformed_line_denies",
    "malformed_include_fails_refuted",
    "malformed_line_stack_fails_refuted"
   ],
   "note": "The claim as stated is false: a line without a legal type whose control is include or substack acts as a correct line, and the failure of a malformed line counts only as its own control says. Both refuted by witness; what holds of every other malformed line is proved."
  },
  {
   "property": "C15",
   "status": "proved",
   "theorems": [
    "lines_follow_the_rules",
    "reading_terminates",
    "delivered_lines_are_strings",
    "cut_continuation_is_an_error"
   ],
   "note": "For contents without NUL bytes (the last two also with)."
  },
  {
   "property": "C16",
   "status": "partial",
   "theorems": [
    "module_names",
    "where_files_are_found",
    "stacks_hold_the_configured_entries",
    "every_configuration_is_covered",
    "cells_are_distinct",
    "plain_file_stacks",
    "other_only_when_own_is_empty",
    "inclusions_contribute_one_type",
    "lines_once_for_service_other_refuted"
   ],
   "note": "Proved for every service; the service called other is an exception (its file is read twice), refuted by witness."
  },
  {
   "property": "C17",
   "status": "partial",
   "theorems": [
    "service_names_ignore_case",
    "started_service_stays_in_directory",
    "set_service_stays_in_directory_refuted"
   ],
   "note": "Holds for names given to pam_start; false for names given to pam_set_item."
  },
  {
   "property": "C18",
   "status": "proved",
   "theorems": [
    "putenv_is_a_map_update",
    "getenv_returns_last_put",
    "getenvlist_is_the_map",
    "putenv_codes",
    "getenv_of_no_variable_refuted"
   ],
   "note": "Names are non-empty strings without '='; for other arguments of pam_getenv the map reading fails (pam_getenv of A=B with A=B=C stored), refuted by witness."
  },
  {
   "property": "C19",
   "status": "proved",
   "theorems": [
    "putenv_is_a_map_update",
    "env_storage_invariant",
    "getenv_never_undefined",
    "putenv_codes"
   ],
   "note": "A failed strdup while replacing a variable deletes that variable (allowed by the claim)."
  },
  {
   "property": "C20",
   "status": "partial",
   "theorems": [
    "get_data_returns_last_stored",
    "cleanup_exactly_once",
    "data_codes",
    "application_has_no_module_data",
    "cleaned_object_not_retrievable_refuted",
    "cleanup_exactly_once_refuted",
    "storing_terminates_refuted"
   ],
   "note": "Map semantics and exactly-once cleanup proved for cleanup functions that store no data. Refuted by witness: the old object is still retrievable while its own cleanup runs on replacement; a cleanup that stores under the same name is run twice on one object, or without end."
  },
  {
   "property": "C21",
   "status": "partial",
   "theorems": [
    "failure_waits_for_largest_request",
    "no_wait_without_failure_or_request",
    "delay_function_always_called",
    "largest_request_decides_refuted",
    "delay_function_told_of_stale_delay_refuted"
   ],
   "note": "Proved unless the first request after a completed call is for 0 microseconds, where it is false (the delay of the earlier call comes back): refuted by witness. With an application's delay function a stale delay is reported."
  },
  {
   "property": "C22",
   "status": "proved",
   "theorems": [
    "delay_within_half"
   ],
   "note": "For every rounding of the five floating point operations that keeps order and representable doubles."
  },
  {
   "property": "C23",
   "status": "proved",
   "theorems": [
    "application_cannot_read_or_set_passwords",
    "application_blind_to_passwords",
    "application_has_no_module_data",
    "get_item_answers"
   ],
   "note": "For every history of calls from pam_start on with arbitrary modules; also noninterference: no call of an application depends on the passwords in the handle."
  },
  {
   "property": "C24",
   "status": "proved",
   "theorems": [
    "no_password_survives",
    "fresh_call_starts_without_password",
    "no_password_survives_refuted_by_flags"
   ],
   "note": "Every module behaviour. Exception, refuted by witness: pam_chauthtok refusing PAM_PRELIM_CHECK or PAM_UPDATE_AUTHTOK among its flags returns before wiping."
  },
  {
   "property": "C25",
   "status": "partial",
   "theorems": [
    "set_item_effect",
    "get_item_answers",
    "items_hold_last_value",
    "failed_set_leaves_item_refuted",
    "set_password_from_inside_refuted"
   ],
   "note": "Proved for all items but: a failed set of a password leaves the empty string (refuted by witness), a failed set of PAM_XAUTHDATA leaves an empty record, a password set from a pointer into the stored one becomes empty (refuted by witness)."
  },
  {
   "property": "C26",
   "status": "proved",
   "theorems": [
    "known_user_returned",
    "user_asked_for",
    "remembered_failure",
    "other_prompt_aborts",
    "answer_is_final"
   ],
   "note": "All conversation functions; conversation functions do not call the library with the handle."
  },
  {
   "property": "C27",
   "status": "partial",
   "theorems": [
    "update_only_after_prelim",
    "phases_follow_protocol",
    "phases_follow_protocol_refuted_by_reload",
    "phases_follow_protocol_refuted_by_audit"
   ],
   "note": "update_only_after_prelim holds without hypotheses. The full protocol holds when PAM_SERVICE is not set and audit records can be written; without that it is false (witnesses): the preliminary phase is then resumed in the middle."
  },
  {
   "property": "C28",
   "status": "proved",
   "theorems": [
    "control_is_back",
    "management_refused_to_modules",
    "module_calls_have_no_effect"
   ],
   "note": "Arbitrary modules, as trees of calls; pam_end called by a module is covered by the guard in run_op."
  },
  {
   "property": "C29",
   "status": "proved",
   "theorems": [
    "local_user_iff_entry",
    "no_local_user"
   ],
   "note": "For every file content and name; an empty name or unreadable file is an error, a name with a colon is never local."
  },
  {
   "property": "C30",
   "status": "proved",
   "theorems": [
    "read_is_complete",
    "read_without_errors",
    "write_is_complete",
    "negative_count_refused"
   ],
   "note": "Every schedule of partial transfers, interrupts, errors and zero returns; buffer bounds are part of the model (out of range = undefined)."
  },
  {
   "property": "C31",
   "status": "partial",
   "theorems": [
    "failed_drop_changes_nothing",
    "successful_drop",
    "drop_defined",
    "regain_defined",
    "wrong_order_refused",
    "regain_restores",
    "never_left_dropped",
    "failed_drop_changes_nothing_refuted",
    "regain_again_restores_refuted",
    "second_drop_refuted"
   ],
   "note": "Proved while the kernel does not refuse to set the old group list again. Refuted otherwise: a failed drop, and a regain repeated after a failed regain, lose the groups."
  },
  {
   "property": "C32",
   "status": "proved",
   "theorems": [
    "passwords_handed_over"
   ],
   "note": "Every split of the stream; no out-of-bounds access; bytes past the passwords handed over are cleared."
  },
  {
   "property": "C33",
   "status": "proved",
   "theorems": [
    "consttime_is_equality",
    "consttime_case_is_equality",
    "consttime_reads_by_length"
   ],
   "note": "The sequence of positions read depends only on the two lengths."
  },
  {
   "property": "C34",
   "status": "partial",
   "theorems": [
    "preauth_decides",
    "history_as_documented",
    "deny_failures_lock",
    "file_limited",
    "never_denied",
    "read_failure_reported",
    "deny_failures_lock_refuted",
    "audit_failure_prevents_lock_refuted",
    "large_deny_never_locks_refuted",
    "concurrent_failures_counted_refuted"
   ],
   "note": "Proved for every history of attempts under a non-decreasing clock, 0 < deny <= 1024 and working system calls; refuted with witnesses when the clock is set back, when the audit socket cannot be opened at the deny-th failure, for deny above the record limit, and for two first failures at the same time."
  },
  {
   "property": "C35",
   "status": "proved",
   "theorems": [
    "aging_as_documented",
    "verdict_unique",
    "user_verdict",
    "account_decision",
    "account_without_entry",
    "account_warning"
   ],
   "note": "Verdict specified as an independent relation over the shadow fields; no arithmetic leaves the range of long. Covers pam_sm_acct_mgmt with and without the helper."
  },
  {
   "property": "C36",
   "status": "proved",
   "theorems": [
    "accepted_is_right",
    "right_is_accepted",
    "locked_never_accepted",
    "empty_accepted_only_with_nullok",
    "empty_hash_needs_empty_password",
    "verify_defined",
    "bigcrypt_in_bounds",
    "des_reads_eight",
    "bigcrypt_traditional"
   ],
   "note": "For arbitrary hash functions. Definedness assumes crypt gives at least two characters; otherwise bigcrypt reads past the end."
  },
  {
   "property": "C37",
   "status": "partial",
   "theorems": [
    "logic_list_value",
    "missing_operator_is_false",
    "missing_operand_is_false",
    "trailing_operator_ignored",
    "name_comparison",
    "wildcard_meaning",
    "range_admits",
    "time_file_decides",
    "pam_time_decides",
    "tty_name_meaning",
    "time_account_ends",
    "wildcard_overlap_refuted",
    "wildcard_defined_refuted",
    "range_end_alike_refuted",
    "bad_time_admits_nothing_refuted",
    "last_newline_needed_refuted",
    "every_file_is_handled_refuted",
    "unreadable_file_denies_refuted"
   ],
   "note": "Decided for every file of well-formed lines (any length, fields below 1000 bytes, continued lines, comments). Refuted: last line without newline, file ending in a rule, wildcard suffix longer than the name (undefined), malformed times."
  },
  {
   "property": "C38",
   "status": "partial",
   "theorems": [
    "prompt_reads_back",
    "fill_places",
    "fill_past_end_stops",
    "extract_gives",
    "agent_id_checked_alternately",
    "plain_names_accepted",
    "accepted_names_are_legal_refuted",
    "legal_names_are_accepted_refuted"
   ],
   "note": "The codec part is proved for every control from 1 to 255 and every length below 2^31-5. The name part is false of the code: __pamc_valid_agent_id advances its index twice per character, so only every other character is checked; agent_id_checked_alternately is the exact characterisation, with a wrongly accepted and a wrongly refused name."
  },
  {
   "property": "C39",
   "status": "partial",
   "theorems": [
    "one_response_each",
    "failure_leaves_nothing",
    "lines_answer_prompts",
    "terminal_answers_prompts",
    "line_wiped",
    "time_up_fails",
    "failure_after_binary_is_safe_refuted",
    "any_binary_message_is_safe_refuted",
    "handler_failure_frees_refuted",
    "time_out_is_error_refuted",
    "end_of_input_is_error_refuted",
    "each_line_one_prompt_refuted",
    "line_always_wiped_refuted"
   ],
   "note": "Proved for messages other than binary ones, and with lines that fit the buffer and no time limit for the contents. With binary prompts failure is undefined or leaks (refuted), and a time-out at the wrong moment or the end of input count as success without a response (refuted)."
  },
  {
   "property": "C40",
   "status": "partial",
   "theorems": [
    "read_errors_reported_refuted",
    "cut_continuation_is_an_error"
   ],
   "note": "False as stated: getline's -1 for a read error is taken for end of file unless a continuation is open."
  },
  {
   "property": "C41",
   "status": "partial",
   "theorems": [
    "resumed_call_runs_every_module_refuted"
   ],
   "note": "False across a change of PAM_SERVICE (witness: a stack with a required denying module succeeds). Without a change of service it follows from the resumption theorems of C05."
  },
  {
   "property": "C42",
   "status": "partial",
   "theorems": [
    "new_password_typed_twice",
    "verify_asks_again",
    "verify_failure_drops",
    "known_password_not_asked",
    "verify_may_not_ask_refuted"
   ],
   "note": "pam_get_authtok: proved. pam_get_authtok_verify: proved while the handle's verified flag is clear; the flag can be stale (witness), then the password is accepted without being retyped."
  },
  {
   "property": "C43",
   "status": "partial",
   "theorems": [
    "helper_descriptors",
    "helper_descriptors_failure",
    "all_closed_refuted"
   ],
   "note": "Proved when close_range(2) works; with the fallback loop only descriptors up to the limit are closed (witness)."
  },
  {
   "property": "C44",
   "status": "proved",
   "theorems": [
    "search_key_first"
   ],
   "note": "The first assigning line wins; stated with a separate description of lines and assignments."
  },
  {
   "property": "C45",
   "status": "partial",
   "theorems": [
    "in_group_iff_member",
    "unknown_is_no_member",
    "member_reported_refuted"
   ],
   "note": "Yes-answers always right; members found if memory suffices and the user has at most 65536 groups; refuted beyond."
  },
  {
   "property": "C46",
   "status": "partial",
   "theorems": [
    "options_defined",
    "simple_options",
    "debug_option",
    "nullok_option",
    "hash_method",
    "first_pass_options",
    "phase_flags",
    "rounds_sane",
    "rounds_default",
    "strtol_reads_numbers",
    "number_options",
    "quiet_option_partial",
    "quiet_option_refuted"
   ],
   "note": "Every option row is covered; refuted for quiet: a hash method given after it clears its bit (the mask of the hash methods overlaps it)."
  },
  {
   "property": "C47",
   "status": "proved",
   "theorems": [
    "loaded_handlers_are_complete",
    "unread_configuration_runs_nothing"
   ],
   "note": "Invariant over all histories of an application with arbitrary modules, including modules and applications setting PAM_SERVICE."
  },
  {
   "property": "C48",
   "status": "proved",
   "theorems": [
    "chkpwd_hides_shadow",
    "chkpwd_reads_one_user",
    "helper_success_is_right",
    "helper_confirms_right"
   ],
   "note": "When reading the password fails, the helper checks the empty password instead: stated in helper_success_is_right."
  },
  {
   "property": "C49",
   "status": "partial",
   "theorems": [
    "let_in_only_with_password",
    "third_failure",
    "helper_agrees",
    "setcred_repeats",
    "invented_users_let_in_refuted",
    "blank_check_agrees_refuted"
   ],
   "note": "Soundness needs that the name service knows no user pam_unix_non_existent: (refuted without); whether a user with the hash of the empty password is asked at all differs between direct and helper checks (refuted)."
  },
  {
   "property": "C50",
   "status": "proved",
   "theorems": [
    "pam_group_grants",
    "pam_group_other_flags",
    "pam_group_keeps_groups_refuted"
   ],
   "note": "For files of well-formed lines and sufficient memory; when memory runs out the groups are lost (refuted)."
  },
  {
   "property": "C51",
   "status": "partial",
   "theorems": [
    "search_path_is_parts",
    "agents_come_from_path",
    "disabled_agent_never_runs",
    "disable_of_running_refused",
    "load_runs_first_found",
    "converse_exchanges",
    "select_means_named",
    "converse_outcomes",
    "any_answer_is_safe_refuted",
    "list_agents_outcome",
    "agents_can_be_listed_refuted",
    "low_descriptors_closed",
    "no_descriptor_leaks_refuted"
   ],
   "note": "An answer declaring a size below 4 overflows the block (refuted), pamc_list_agents works for at most one agent (its outcome is characterised for all directories), and descriptors above the guess leak into agents (refuted)."
  },
  {
   "property": "C52",
   "status": "partial",
   "theorems": [
    "first_rule_decides",
    "decision_unique",
    "module_decides",
    "directory_order",
    "base_name_meaning",
    "origin_meaning",
    "access_options",
    "access_bad_table_aborts",
    "local_origin",
    "device_total",
    "last_rule_counts_refuted",
    "malformed_rule_denies_refuted",
    "permission_field_decides_refuted",
    "default_accessfile_same_refuted",
    "tables_read_or_denied_refuted",
    "other_rules_do_not_matter_refuted",
    "no_undefined_behaviour_refuted"
   ],
   "note": "Proved for every table, option and environment under two assumptions: the resolver's IPv4 answer about the remote host is its full answer (otherwise refuted: an earlier rule with a subnet changes later ones), and addresses can be printed (otherwise undefined). Refuted further: a rule after a leading separator with permission + denies; memory exhaustion drops tables."
  },
  {
   "property": "C53",
   "status": "partial",
   "theorems": [
    "local_origin_word",
    "local_not_remote",
    "remote_plain_word",
    "domain_word",
    "subnet_word",
    "prefix_word",
    "mask_word",
    "address_word",
    "plain_user_word",
    "group_word",
    "netgroup_word",
    "user_at_host_word",
    "netgroup_at_host_word",
    "prefix_zero_refuted",
    "prefix_decimal_refuted",
    "user_names_distinct_refuted",
    "address_of_one_family_refuted"
   ],
   "note": "Proved for all addresses of both families and all prefix lengths from 1. The prefix 0 stands for the one address only, a prefix with a leading zero is octal, 127.0.0.1 and ::1 stand for each other, and case does not matter in user names (all refuted with witnesses). A word that is a host name is covered as far as the resolver's answers go (address_word is stated for addresses)."
  },
  {
   "property": "C54",
   "status": "partial",
   "theorems": [
    "digest_is_sha1",
    "digest_of_prefixes",
    "long_piece_refuted"
   ],
   "note": "Proved for pieces shorter than 2^32 octets each; the count goes wrong for a piece of 2^33 octets (refuted), because its size_t length is added to a uint32 with at most one carry."
  },
  {
   "property": "C55",
   "status": "partial",
   "theorems": [
    "mac_is_hmac",
    "short_key_no_mac"
   ],
   "note": "Keys and texts shorter than 2^32 octets; keys below the digest's length are refused by the code."
  },
  {
   "property": "C56",
   "status": "partial",
   "theorems": [
    "digest_is_md5",
    "broken_on_big_endian_refuted"
   ],
   "note": "Proved for pieces shorter than 2^32 octets, for the Good variant on both byte orders and the Broken variant on little-endian machines; the Broken variant is meant not to be MD5 on big-endian machines (refuted there)."
  },
  {
   "property": "C57",
   "status": "proved",
   "theorems": [
    "hash_is_md5crypt",
    "hash_verifies",
    "hash_form",
    "same_hash_same_digest",
    "encoding_loses_nothing",
    "stored_hash_accepted",
    "accepted_iff_digests_agree"
   ],
   "note": "Passwords shorter than 2^31 octets (the length is an int)."
  },
  {
   "property": "C58",
   "status": "partial",
   "theorems": [
    "directory_checked",
    "missing_directory_refuted",
    "name_meaning",
    "name_only",
    "names_distinct",
    "names_distinct_refuted",
    "stays_below_directory_refuted",
    "age_window",
    "good_for_interval_only_refuted",
    "large_timeout_defined_refuted",
    "timeout_option",
    "timeout_garbage",
    "empty_timeout_ignored_refuted",
    "login_before_stamp",
    "login_after_2038_refuted",
    "own_login_needed_refuted"
   ],
   "note": "Name, window and login test are characterised exactly. Refuted: a missing first directory reads an uninitialised stat; missing later directories count as safe; a colon in the terminal makes two targets share a file; slashes in the target's name lead elsewhere; stamps up to twice the interval in the future are good; times after 2038 and names equal in 32 characters."
  },
  {
   "property": "C59",
   "status": "partial",
   "theorems": [
    "success_needs_session",
    "key_from_random",
    "default_not_key",
    "accepted_file",
    "session_stamps",
    "session_then_accepted",
    "key_made_good_refuted",
    "key_kept_refuted"
   ],
   "note": "Proved for all histories in which nobody but the module and pam_timestamp_check writes to the directory (anyone may remove files). Refuted: a failed creation of the key is never repaired; timestampdir=/var/run lets a session overwrite the key."
  },
  {
   "property": "C60",
   "status": "partial",
   "theorems": [
    "check_needs_session",
    "removed_refused",
    "target_plain",
    "check_agrees_refuted"
   ],
   "note": "pam_timestamp_check looks only at the time of the file, so it reports success for a stamp the module refuses, e.g. that of a failed session (refuted); that some session was at least tried is proved."
  },
  {
   "property": "C61",
   "status": "partial",
   "theorems": [
    "misconfigured_refused",
    "list_decides",
    "unsafe_list_refused",
    "not_meant_ignored",
    "success_has_reason",
    "nothing_to_look_for",
    "missing_list_onerr",
    "chomp_entry",
    "last_item_counts_refuted",
    "order_irrelevant_refuted",
    "apply_limits_refuted"
   ],
   "note": "Proved for argument lists with at most one item=. Refuted: with two item= options a group or shell before item=user goes on counting, onerr= counts only for mistakes after it, apply= does not limit the rule while no user is known."
  },
  {
   "property": "C62",
   "status": "partial",
   "theorems": [
    "condition_holds",
    "condition_codes",
    "unknown_user_refused",
    "decimal_numeral",
    "succeeds_iff_all_hold",
    "first_failure_decides",
    "incomplete_refused",
    "in_means_item_refuted",
    "any_value_refuted",
    "decimal_numbers_refuted"
   ],
   "note": "Proved for the relations in and notin where the text has no colon; refuted otherwise. Refuted besides: a value that is the name of an option is not taken as a value; a number with a leading 0 is octal."
  },
  {
   "property": "C63",
   "status": "partial",
   "theorems": [
    "command_line_test",
    "active_test",
    "others_pass",
    "root_terminals",
    "unsafe_refused",
    "no_list_passes",
    "number_means_pts_refuted",
    "console_word_needed_refuted",
    "defined_refuted",
    "nameless_refused_refuted",
    "no_list_refused_refuted"
   ],
   "note": "Proved for kernel command lines of at least eight characters. Refuted: the alias of a number for pts/number never matches; the first eight characters of the command line are taken for console=; a shorter command line reads past its end; a missing list admits root; a terminal without a name is admitted by an empty line."
  },
  {
   "property": "C64",
   "status": "partial",
   "theorems": [
    "wheel_decides",
    "wheel_success",
    "wheel_unknown",
    "wheel_root_only",
    "denied_group_gone_refuted"
   ],
   "note": "Characterised exactly. Refuted: with deny and a group that does not exist everyone goes on."
  },
  {
   "property": "C65",
   "status": "partial",
   "theorems": [
    "no_notice_passes",
    "notice_refuses",
    "notice_stops_users",
    "root_passes_refuted",
    "shells_decides",
    "shells_codes"
   ],
   "note": "A notice that cannot be opened counts as none. Refuted: root is stopped by a notice that cannot be read, e.g. a directory."
  },
  {
   "property": "C66",
   "status": "partial",
   "theorems": [
    "usertype_decides",
    "usertype_errors",
    "below_min_is_system_refuted",
    "negative_ignored_refuted",
    "faildelay_value",
    "faildelay_fits",
    "invalid_delay_ignored_refuted"
   ],
   "note": "Characterised exactly. Refuted: a uid below UID_MIN but above SYS_UID_MAX is regular; negative settings count modulo 2^64; an invalid delay= disables all others."
  },
  {
   "property": "C67",
   "status": "partial",
   "theorems": [
    "session_mask",
    "session_mask_range",
    "umask_result",
    "gecos_wins",
    "umask_defined",
    "umask_terminates",
    "bad_mask_ignored_refuted",
    "umask_defined_refuted"
   ],
   "note": "Characterised exactly, for process masks of nine bits. Refuted: a mask in GECOS that is not a number makes the mask 0; a large ulimit= in GECOS overflows."
  },
  {
   "property": "C68",
   "status": "partial",
   "theorems": [
    "accepted_not_recorded",
    "recorded_refused",
    "unreadable_refuses_refuted"
   ],
   "note": "For history files without NUL bytes and users without a colon. Refuted: a history that cannot be opened refuses nothing."
  },
  {
   "property": "C69",
   "status": "partial",
   "theorems": [
    "save_frame",
    "save_updates",
    "history_bounded",
    "saved_refused",
    "success_saves_refuted",
    "saved_once_refuted",
    "other_records_kept_refuted",
    "comma_refused_refuted"
   ],
   "note": "For history files whose last line ends in a newline, hashes without comma, colon or newline, and a successful rename. Each of these conditions is shown necessary by a refutation. SELinux helper not modelled."
  },
  {
   "property": "C70",
   "status": "partial",
   "theorems": [
    "new_password_unused",
    "chauthtok_bounds",
    "options_meaning",
    "large_remember_refuted",
    "conf_remember_refuted"
   ],
   "note": "Under the conditions of C69. Refuted: the limits 0..400 do not hold for 2^32 as option (switches the module off) nor for values in the configuration file."
  },
  {
   "property": "C71",
   "status": "proved",
   "theorems": [
    "expand_meaning"
   ],
   "note": "For environments and items whose strings are no longer than SIZE_MAX."
  },
  {
   "property": "C72",
   "status": "partial",
   "theorems": [
    "line_meaning",
    "line_asks_one",
    "conf_line_meaning",
    "conf_changes_only_named",
    "conf_last_line_counts",
    "conf_of_settings_succeeds",
    "malformed_last_line_aborts",
    "trailing_blank_tolerated_refuted",
    "trailing_comment_tolerated_refuted",
    "malformed_line_fails_refuted",
    "documented_remotehost_refuted",
    "order_of_arguments_refuted",
    "bare_line_unsets_refuted"
   ],
   "note": "The meaning of a line is proved unless an empty word stands behind a quoted value, where it is false (witness). The frame holds for all files without NUL bytes. Refuted besides: trailing blanks and comments are tolerated; a malformed line fails the module only as the last one; a line without arguments only unsets."
  },
  {
   "property": "C73",
   "status": "partial",
   "theorems": [
    "env_line_asks_one",
    "env_line_meaning",
    "env_changes_only_asked",
    "env_last_line_counts",
    "quoted_hash_kept_refuted"
   ],
   "note": "Proved for files without NUL bytes. Refuted: a number sign inside quotes ends the value."
  },
  {
   "property": "C74",
   "status": "proved",
   "theorems": [
    "env_options_meaning",
    "files_opened",
    "module_changes_only_named",
    "missing_conf_skips_all"
   ],
   "note": "The files' contents and the outcomes of stat, pam_modutil_drop_priv and pam_modutil_regain_priv are parameters."
  },
  {
   "property": "C75",
   "status": "proved",
   "theorems": [
    "salt_meaning",
    "new_hash_accepted",
    "new_hash_method",
    "traditional_hash"
   ],
   "note": "crypt of the C library is a parameter, with the hypotheses own_salt and traditional on the form of its results; MD5 crypt is the model of C57 on machines where it is right."
  },
  {
   "property": "C76",
   "status": "partial",
   "theorems": [
    "md5_hashing",
    "old_password_saved",
    "history_saved",
    "history_begins",
    "bare_name_replaced",
    "failed_write_reported_refuted",
    "unfinished_file_refuted",
    "remember_none_refuted",
    "short_row_refuted",
    "temporary_file_stays_refuted"
   ],
   "note": "Proved for files of complete lines below 16384 bytes when the writes of old lines and the allocations succeed, for users without colon and newline. Refuted without these: a failed write is reported as success and the rest of the file is lost; without a final newline rows are glued; a row of too few fields is dropped; remember=0 makes a row; the temporary file may stay."
  },
  {
   "property": "C77",
   "status": "proved",
   "theorems": [
    "history_check",
    "saved_is_refused",
    "last_passwords_refused"
   ],
   "note": "Under the conditions of C76, allocations included."
  },
  {
   "property": "C78",
   "status": "partial",
   "theorems": [
    "passwd_updated",
    "passwd_updates",
    "shadow_updated",
    "shadow_updates",
    "entries_afterwards",
    "comments_kept_refuted"
   ],
   "note": "Entries are what fgetpwent and fgetspent of the C library, which are parameters, give. Refuted: lines that are no entries, comments for instance, are lost."
  },
  {
   "property": "C79",
   "status": "proved",
   "theorems": [
    "update_only_if"
   ],
   "note": "Standard input, its chunking, users, the lock and the library's crypt are parameters. lckpwdf is taken to succeed or fail as a whole."
  },
  {
   "property": "C80",
   "status": "partial",
   "theorems": [
    "preliminary_check",
    "change_only_if",
    "new_password_works",
    "failure_changes_nothing_refuted",
    "old_password_needed_refuted"
   ],
   "note": "Without NIS and SELinux. The helper started for an unprivileged caller is the model of C48. Refuted: a failing call may have stored the new hash already; the second call asks for no old password if PAM_OLDAUTHTOK is not set."
  },
  {
   "property": "C81",
   "status": "partial",
   "theorems": [
    "userdb_options",
    "userdb_authentication",
    "own_entry_refuted",
    "unknown_method_refused_refuted",
    "whole_data_compared_refuted"
   ],
   "note": "The database is a finite list of keys and data, crypt a parameter. Proved unless dump is given with data not terminated. Refuted: with key_only user and password are told apart by the first dash only, so ann-b's entry lets ann in; an unknown crypt= means plain text; bytes after NUL are ignored."
  },
  {
   "property": "C82",
   "status": "partial",
   "theorems": [
    "userdb_account",
    "account_defined_refuted"
   ],
   "note": "Proved when db= is given. Refuted: without db= a null pointer is passed on to open; dump prints data that is not terminated."
  },
  {
   "property": "C83",
   "status": "partial",
   "theorems": [
    "limits_line",
    "limits_lines",
    "applies_unique",
    "scanned_unique",
    "wildcard_dash_refuted",
    "percent_gid_dash_refuted",
    "individual_over_group_refuted",
    "odd_numbers_refuted"
   ],
   "note": "Proved for user names without a colon and groups that have a name when joined by number (else a null pointer is used). Refuted against limits.conf(5): * - and %group - exempt no one, %:<gid> - compares the uid, a group without limits wins over a member's own limits, uids are taken modulo 2^32."
  },
  {
   "property": "C84",
   "status": "partial",
   "theorems": [
    "limits_soft",
    "limits_hard_partial",
    "read_value_iff",
    "priority_last",
    "nonew_last",
    "dash_sets_both_refuted",
    "priority_precedence_refuted",
    "odd_numbers_refuted"
   ],
   "note": "Soft limits in full. Hard limits unless a dash entry follows a soft-only entry of higher precedence (its hard part is dropped, refuted). Priority and nonewprivs do not follow the precedence (refuted)."
  },
  {
   "property": "C85",
   "status": "partial",
   "theorems": [
    "limits_logins",
    "logins_refused",
    "numsys_last",
    "group_last",
    "numsys_of_winner_refuted",
    "group_of_winner_refuted",
    "percent_is_syslogins_refuted",
    "long_name_refuted"
   ],
   "note": "utmp only, not logind. Refuted: what is counted (all logins, which group) is taken from the last entry for logins, not from the one that gives the limit; names beyond 32 bytes are never found in utmp."
  },
  {
   "property": "C86",
   "status": "partial",
   "theorems": [
    "limits_session_partial",
    "limits_not_opened",
    "limits_options",
    "scanned_unique"
   ],
   "note": "Missing: entries not unmixed (see C84), with set_all other texts of /proc/1/limits than the kernel's, a vendor directory, running out of memory."
  },
  {
   "property": "C87",
   "status": "proved",
   "theorems": [
    "kernel_limits_read",
    "kernel_fields_spec"
   ],
   "note": "The kernel's format: heading and rows %-25s %-20s %-20s %-10s as in fs/proc/base.c."
  },
  {
   "property": "C88",
   "status": "partial",
   "theorems": [
    "faillock_line",
    "faillock_settings",
    "faillock_settings_errors",
    "faillock_settings_range",
    "faillock_large_number_refuted",
    "faillock_malformed_number_refuted",
    "faillock_flag_value_refuted"
   ],
   "note": "Characterised exactly, with the numbers as glibc's sscanf gives them. Refuted: deny=65536 means 0 (never lock) and unlock_time=4294967296 means never; text after a number and a minus sign are accepted; even_deny_root=no sets the flag."
  },
  {
   "property": "C89",
   "status": "partial",
   "theorems": [
    "motd_lists",
    "motd_shown",
    "motd_nothing",
    "motd_empty_directory_refuted",
    "motd_hidden_refuted"
   ],
   "note": "Exact, for lists of directories without an empty name after the first. Refuted: with such a name (motd_dir=/a: or /a::/b) the array has a NULL entry that is given to scandir, which is undefined; a directory named like a message hides the messages of that name in later directories. Allocation failures are not modelled."
  },
  {
   "property": "C90",
   "status": "proved",
   "theorems": [
    "echo_arguments",
    "echo_file",
    "echo_defined",
    "echo_empty_file_refuted"
   ],
   "note": "Exact for every input. Recorded besides: an empty file= falls back to the arguments and is shown among them (echo_empty_file_refuted)."
  },
  {
   "property": "C91",
   "status": "partial",
   "theorems": [
    "issue_prompt",
    "issue_set",
    "issue_once"
   ],
   "note": "For all files and failures, given that localtime returns a time with fields in their ranges; the number of users is an input."
  },
  {
   "property": "C92",
   "status": "partial",
   "theorems": [
    "ttyaudit_status",
    "ttyaudit_restored",
    "ttyaudit_untouched",
    "ttyaudit_large_uid_refuted"
   ],
   "note": "For all inputs; netlink messages work or fail as a whole, fnmatch is an input, allocations succeed. Refuted: a number above 2^32 is not rejected, only 32 bits of it are kept, so :4294967296 means root."
  },
  {
   "property": "C93",
   "status": "partial",
   "theorems": [
    "nsopen_walk",
    "nsopen_static",
    "nsopen_descriptors",
    "nsopen_mounts",
    "nsumount_sound",
    "nsopen_user_link_refuted",
    "nsopen_double_slash_refuted"
   ],
   "note": "For all paths and all changes of the file system between calls. Missing: the kernel's side (permissions, errno, mounts other than a directory over itself) is modelled only in outline. Refuted: a link of root's that leads through a user's directory lets the user's link decide; a path with a doubled slash is not opened."
  },
  {
   "property": "C94",
   "status": "partial",
   "theorems": [
    "ns_words",
    "ns_variables",
    "ns_mntopts",
    "ns_method",
    "ns_line",
    "ns_files",
    "ns_files_safe",
    "ns_whom",
    "ns_empty_home_refuted",
    "ns_empty_method_refuted",
    "ns_flag_prefix_refuted",
    "ns_rdir_refuted"
   ],
   "note": "For all files and users; allocations succeed and the choice of the files is an input. Refuted: a word beginning with a variable with an empty value, and a method of colons only, are undefined behaviour; a misspelt flag counts if it begins with the name of a flag; the directory of the remote user is not checked for dots."
  },
  {
   "property": "C95",
   "status": "partial",
   "theorems": [
    "ns_instance",
    "ns_instance_parent",
    "ns_users_apart",
    "ns_safe_path",
    "ns_root_shared",
    "ns_user_data",
    "ns_contexts_apart_refuted",
    "ns_safe_path_sticky_refuted",
    "ns_ruser_refuted"
   ],
   "note": "For all names and lengths; the hash is any function to 32 characters, and the context comes from SELinux as an input. Refuted: context and user are joined by an underscore so that two pairs may share an instance; sticky directories that anyone may write count as safe; with PAM_RUSER set a name is appended to an uninitialised buffer."
  },
  {
   "property": "C96",
   "status": "partial",
   "theorems": [
    "ns_setup_mounts",
    "ns_setup_attributes",
    "ns_setup_descriptors",
    "ns_setup_cleanup",
    "ns_session",
    "ns_session_close",
    "ns_unmount_only_refuted",
    "ns_cleanup_refuted",
    "ns_cwd_refuted"
   ],
   "note": "For all entries and all changes of the file system between calls. Missing: labels, groups, the init script and the removal itself are outside. Refuted: with unmnt_only an entry that applies to the user but not to the caller is set up; the clean up may remove an entry named by the template that the session did not make; the working directory counts as inside a directory whose name is a prefix of its own."
  },
  {
   "property": "C97",
   "status": "partial",
   "theorems": [
    "exec_options",
    "exec_success",
    "exec_program",
    "exec_descriptors",
    "exec_parent",
    "exec_token",
    "exec_defined",
    "exec_told",
    "exec_user_refuted",
    "exec_leak_refuted",
    "exec_crash_refuted",
    "exec_whole_token_refuted"
   ],
   "note": "For all arguments and descriptor tables. Missing: debug messages, the text written to the log file, and the program itself, whose output and status are inputs. Refuted: PAM_USER and the like in the PAM environment come before the variables for the items; pipes stay open and SIGCHLD keeps its default handling when fork fails, pipes also when no program is named; the child reads a null pointer when the environment cannot be listed; passwords are cut to 511 bytes."
  },
  {
   "property": "C98",
   "status": "partial",
   "theorems": [
    "mkhome_safe",
    "mkhome_kept",
    "mkhome_copy",
    "mkhome_modes",
    "mkhome_parents",
    "mkhome_defined",
    "mkhome_helper",
    "mkhome_options",
    "mkhome_session",
    "mkhome_mode_agrees",
    "mkhome_umask_refuted",
    "mkhome_defs_refuted",
    "mkhome_dangling_refuted",
    "mkhome_slash_refuted",
    "mkhome_skipped_refuted",
    "mkhome_retry_refuted",
    "mkhome_numbers",
    "mkhome_empty_mask_refuted"
   ],
   "note": "For all skeletons, file systems and failures. Missing: other processes changing the files meanwhile, the loop over blocks of a file (a file is written in one step, on failure in part), signals and logging. Refuted: the umask text is octal for the module and decimal for the helper; UMASK of login.defs does not reach the files; success over a dangling link, over a home directory with a slash at the end made by a failed try, over entries that could not be looked at, and over a home directory left incomplete."
  },
  {
   "property": "C99",
   "status": "partial",
   "theorems": [
    "ftp_settings",
    "ftp_decides",
    "ftp_address",
    "ftp_defined",
    "ftp_rhost_refuted",
    "ftp_guest_refuted",
    "ftp_crash_refuted",
    "ftp_failed_user_refuted"
   ],
   "note": "For all names, lists and answers; the texts of the prompts and the wiping of the answer are not modelled. Refuted: PAM_RHOST stays what the application has set (an anonymous user chooses or removes it); PAM_USER is a name of the list (a leading comma stays); no undefined behaviour (an empty response); PAM_USER is kept when the module fails."
  },
  {
   "property": "C100",
   "status": "proved",
   "theorems": [
    "rootok_decides",
    "rhosts_decides",
    "localuser_decides",
    "canonical_name",
    "permit_decides",
    "debug_decides"
   ],
   "note": "For all inputs; logging is not modelled, and ruserok, SELinux and the account database are inputs."
  },
  {
   "property": "C101",
   "status": "partial",
   "theorems": [
    "keyring_history",
    "keyring_owner",
    "revoked_when_asked",
    "close_revokes",
    "forced_keyring",
    "keyinit_ids_kept",
    "saved_gid_kept_refuted",
    "close_session_result_refuted",
    "keyring_linked_refuted",
    "own_keyring_refuted"
   ],
   "note": "For all sequences of calls in one thread; other threads appear only through the shared session counter. Serial numbers are not zero and ids are not -1. Refuted: the saved gid is kept too; closing reports that revoking failed; a keyring in use has the user's keyring linked; a session goes on with a keyring of its own user."
  },
  {
   "property": "C102",
   "status": "partial",
   "theorems": [
    "loginuid_set",
    "loginuid_not_set",
    "auditd_accepted",
    "other_loginuid_refuted"
   ],
   "note": "For all inputs with uids of 32 bits and a uid_map without zero bytes; logging is not modelled. Refuted: a session that is not refused has the login uid of its user (PAM_IGNORE in a user namespace)."
  },
  {
   "property": "C103",
   "status": "proved",
   "theorems": [
    "xauth_options",
    "xauth_consent",
    "xauth_forwards",
    "xauth_refuses"
   ],
   "note": "For all inputs. fnmatch, the file system and the child between fork and execv are inputs; SELinux and logging are not modelled."
  },
  {
   "property": "C104",
   "status": "partial",
   "theorems": [
    "xauth_success",
    "xauth_variable",
    "xauth_file_kept",
    "xauth_closes",
    "xauth_removed",
    "xauth_handed_refuted",
    "xauth_written_refuted",
    "xauth_file_left_refuted",
    "xauth_unlink_as_user_refuted",
    "xauth_pamenv_refuted",
    "xauth_two_sessions_refuted"
   ],
   "note": "For all inputs; failures of pam_putenv are not modelled. Refuted: success means that cookies were handed over, or that the file has them; a failure leaves no file (privileges not regained or no memory right after mkstemp); the home directory is touched only as the target user; the PAM environment is clean after a failure; the end removes the files of two sessions on one handle."
  },
  {
   "property": "C105",
   "status": "proved",
   "theorems": [
    "mail_effects",
    "mail_done",
    "mail_result",
    "mail_empty_dir_refuted",
    "mail_removed_refuted",
    "mail_none_refuted",
    "mail_conversation_refuted"
   ],
   "note": "For all inputs, if the default mail directory does not begin with a tilde. stat, scandir and the conversation are inputs. The refuted theorems are about stronger statements: an empty dir= is ignored; the end always removes MAIL; no mail is said only of folders that can be read; a message that cannot be shown does not matter."
  },
  {
   "property": "C106",
   "status": "partial",
   "theorems": [
    "sepermit_result",
    "sepermit_defined",
    "sepermit_colons_refuted"
   ],
   "note": "For all inputs of a call that is defined; the paths of the configuration files are those of the usual prefix. Refuted: every configuration is handled (a line with only colons is a null pointer dereference)."
  },
  {
   "property": "C107",
   "status": "partial",
   "theorems": [
    "sepermit_result",
    "sepermit_end",
    "sepermit_second_refuted",
    "sepermit_blind_refuted",
    "sepermit_unrecorded_refuted"
   ],
   "note": "For all inputs; termination of the killing loop depends on the system and is not claimed (fuel). The numbers in /proc are inputs (readdir, atoi and growing the table are not modelled). Refuted: the lock is held after every success (the second call on a handle gives it back); no process runs after success (/proc not readable); every lock that is taken is given back at the end (pam_set_data fails)."
  },
  {
   "property": "C108",
   "status": "proved",
   "theorems": [
    "quota_set",
    "quota_unset",
    "quota_deepest_refuted",
    "quota_own_mount_refuted",
    "quota_hidden_refuted",
    "quota_enduid_refuted",
    "quota_overwrite_refuted"
   ],
   "note": "For all inputs; the list of mounted file systems, quotactl and memory are inputs. The file system of the home directory is described as the module finds it. Refuted: it is the deepest one that holds the home directory (a root directory listed later replaces it); it is the one mounted on the home directory itself; of two on one directory it is the later one; enduid is a bound (not with startuid=0); only overwrite=1 overwrites."
  },
  {
   "property": "C109",
   "status": "proved",
   "theorems": [
    "lastlog_inactive",
    "lastlog_roundtrip",
    "lastlog_2038_refuted"
   ],
   "note": "For all inputs; the file is an input (lastlog_roundtrip: the record read is the one written by the session). lastlog_roundtrip is for logins before 2038, with 32-bit ll_time as in glibc for x86-64. Refuted: the same after that."
  },
  {
   "property": "C110",
   "status": "partial",
   "theorems": [
    "lastlog_recorded",
    "lastlog_success",
    "lastlog_wtmp",
    "lastlog_limit",
    "lastlog_last_login",
    "lastlog_told",
    "lastlog_failures",
    "lastlog_result",
    "lastlog_closed",
    "lastlog_silent_refuted",
    "lastlog_other_user_refuted",
    "lastlog_since_refuted",
    "lastlog_wtmp_refuted",
    "lastlog_line_refuted"
   ],
   "note": "For all inputs with 32-bit times in lastlog. Not modelled: the texts of messages and dates, records written in part, overflow of the number of failures. Refuted: the option silent keeps failures quiet; only failures of the user, and only since the last login, are told; wtmp has a login only if the session succeeds; login and logout name the same line."
  },
  {
   "property": "C111",
   "status": "proved",
   "theorems": [
    "selinux_context",
    "selinux_context_given",
    "selinux_refused",
    "selinux_unknown_refuted"
   ],
   "note": "For all inputs; libselinux and the policy are inputs. Dialogues are finite lists of answers; a dialogue that is still going on is a case of its own. Refuted: only users known to the system get a context."
  },
  {
   "property": "C112",
   "status": "proved",
   "theorems": [
    "selinux_success",
    "selinux_nothing_set",
    "selinux_restored",
    "selinux_enforced",
    "selinux_only",
    "selinux_permissive",
    "selinux_gone",
    "selinux_audit",
    "selinux_key_refuted",
    "selinux_null_label_refuted"
   ],
   "note": "For all inputs. selinux_restored: the labels read at the beginning are those in effect, and the kernel takes no missing label for a file. Refuted: the context of new keys is restored; files are given contexts computed for them only. Not modelled: texts of messages."
  },
  {
   "property": "C113",
   "status": "proved",
   "theorems": [
    "lookup_entry",
    "lookup_size",
    "lookup_ends",
    "lookup_alive",
    "lookup_application",
    "lookup_effort_refuted",
    "getlogin_same"
   ],
   "note": "For all inputs and sequences of calls; addresses and the answers of the data bases are inputs. Refuted: the effort is bounded by the data of the handle. Not modelled: the fallback for systems without reentrant functions."
  },
  {
   "property": "C114",
   "status": "proved",
   "theorems": [
    "stress_password",
    "stress_authenticate",
    "stress_results",
    "stress_idle",
    "stress_changed",
    "stress_differ",
    "stress_unanswered",
    "stress_old_failed",
    "stress_only",
    "stress_expired",
    "stress_new_token_refuted",
    "stress_old_token_refuted"
   ],
   "note": "For all inputs; the conversation is a function of what was asked before. Refuted: the new password is the token after a change; the old password asked for is the old token. Not modelled: the system log."
  },
  {
   "property": "C115",
   "status": "proved",
   "theorems": [
    "filter_arguments",
    "filter_args_fit",
    "filter_restored",
    "filter_success",
    "filter_none",
    "filter_works",
    "filter_ran",
    "filter_status",
    "filter_tty",
    "filter_new_term_refuted",
    "filter_wait_refuted",
    "filter_type_refuted"
   ],
   "note": "For all inputs; reports of wait are a list from outside. Refuted: new_term always gives PAM_TTY the terminal of the filter; the first process always waits for the application; the filter is told the type of the call. Not modelled: descriptors other than the standard ones, the system log."
  },
  {
   "property": "C116",
   "status": "proved",
   "theorems": [
    "trail_fits",
    "trail_readable",
    "trail_record",
    "trail_agrees",
    "trail_skipped",
    "trail_complete",
    "trail_alerts",
    "trail_note",
    "trail_privilege_refuted",
    "trail_end_refuted",
    "trail_comma_refuted"
   ],
   "note": "For all inputs and sequences of calls. Refuted: success implies a record also without privilege; pam_end records something whenever nothing was recorded; the list tells the modules whatever their names. Not modelled: libaudit itself, the system log apart from failures of audit_log_acct_message."
  },
  {
   "property": "C117",
   "status": "proved",
   "theorems": [
    "tool_arguments",
    "tool_directory",
    "tool_reset",
    "tool_show_keeps",
    "tool_shown",
    "tool_source",
    "tool_old",
    "tool_defined",
    "tool_reset_all",
    "tool_legacy_refuted",
    "tool_all_refuted",
    "tool_creates_refuted"
   ],
   "note": "For all inputs. Refuted: the legacy format shows any file without undefined behaviour; the exit status of a reset of all users tells whether it worked; showing a user leaves the files alone. Not modelled: the texts for stderr, owner and mode of files, the padding of columns."
  }
 ]
}