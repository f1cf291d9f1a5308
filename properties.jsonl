{"id": "C01", "title": "Dispatch is fail-closed", "statement": "A management call (pam_authenticate, pam_setcred, pam_acct_mgmt, pam_open_session, pam_close_session, pam_chauthtok phase) returns PAM_SUCCESS only if at least one module function of the stack was really called and itself returned PAM_SUCCESS, and the stack's controls asked for that return to count (ok, done, or a jump on a frozen chain); an empty stack yields PAM_PERM_DENIED.", "quantifier": "every stack (any length, nesting, controls), every integer any module may return, every resume history", "why_tests_cant": "the space of stacks x controls x return codes is unbounded; tests sample a few stacks", "anchors": ["libpam/pam_dispatch.c:_pam_dispatch_aux", "libpam/pam_dispatch.c:_pam_dispatch"]}
{"id": "C02", "title": "Substack semantics", "statement": "Running a stack with substacks gives the result of the documented recursive semantics: done/die inside a substack end only that substack, reset restores the verdict held when the enclosing (sub)stack was entered, a jump cannot leave its substack, and a whole substack counts as one module for a jump of its parent.", "quantifier": "every tree of substacks of any depth below the library limit and any width, every control table, every module return value", "why_tests_cant": "nesting and jumps give an infinite family of stacks; the C code flattens them to a list with levels and only a proof shows the flat walk equals the recursive meaning", "anchors": ["libpam/pam_dispatch.c:_pam_dispatch_aux"]}
{"id": "C03", "title": "Meaning of required/requisite/sufficient/optional", "statement": "For a stack using only the four keyword controls, the call succeeds exactly when, in the part of the stack up to the first deciding module (first failing requisite, or first succeeding sufficient not preceded by a failed required), no required or requisite module failed and at least one module that counts succeeded; and when a required/requisite module fails the code returned is the one of the first such failure.", "quantifier": "all keyword stacks of any length and all module return values", "why_tests_cant": "all combinations of keywords and return codes over unbounded lengths", "anchors": ["libpam/pam_dispatch.c:_pam_dispatch_aux", "libpam/pam_handlers.c:_pam_parse_conf_file"]}
{"id": "C04", "title": "Event-driven resume is transparent", "statement": "If modules return PAM_INCOMPLETE and the application calls the same function again until it completes, the final result, the frozen verdicts and the credited modules are those of one uninterrupted call in which each suspended module had simply taken longer; modules that already returned are not run again.", "quantifier": "every stack incl. substacks and jumps, every schedule of PAM_INCOMPLETE returns", "why_tests_cant": "suspension points x stack shapes is infinite; saved state could be wrong only for particular jump/substack positions", "anchors": ["libpam/pam_dispatch.c:_pam_dispatch_aux", "libpam/pam_dispatch.c:_pam_dispatch"]}
{"id": "C05", "title": "Only the suspended function can be resumed", "statement": "While a call is suspended (it returned PAM_INCOMPLETE), calling any other management function on the handle returns PAM_ABORT, runs no module and leaves the suspended call resumable unchanged.", "quantifier": "all pairs of functions, all suspended states", "why_tests_cant": "all suspended states cannot be enumerated", "anchors": ["libpam/pam_dispatch.c:_pam_dispatch"]}
{"id": "C06", "title": "Frozen chain for setcred/close_session", "statement": "pam_setcred (pam_close_session) visits exactly the modules that the preceding pam_authenticate (pam_open_session) visited, in the same order, independently of what the setcred (close) functions return.", "quantifier": "all stacks, all return values in both passes", "why_tests_cant": "needs all pairs of runs", "anchors": ["libpam/pam_dispatch.c:_pam_dispatch_aux"]}
{"id": "C07", "title": "Dispatch has no undefined behaviour on loaded stacks", "statement": "For every stack the configuration loader can produce, walking it never reads or writes outside the 16-entry substack state array, never reads an uninitialised entry, and never indexes the action table out of range, whatever integers modules return and wherever they suspend.", "quantifier": "all configurations, all module returns, all resumes", "why_tests_cant": "memory errors at particular nesting/jump shapes", "anchors": ["libpam/pam_dispatch.c:_pam_dispatch_aux", "libpam/pam_handlers.c:_pam_load_conf_file"]}
{"id": "C08", "title": "A jump past the end of its (sub)stack can never lead to success", "statement": "When a module's control requests a jump of more modules than remain in its own (sub)stack, no success can result from that stack position: the verdict becomes PAM_PERM_DENIED unless an enclosing reset discards it.", "quantifier": "all stacks and jump counts", "why_tests_cant": "all jump counts up to INT_MAX and stack shapes", "anchors": ["libpam/pam_dispatch.c:_pam_dispatch_aux"]}
{"id": "C09", "title": "Out-of-range module return codes count as failure", "statement": "A module returning an integer outside 0.._PAM_RETURN_VALUES-1 is treated as a 'bad' result with code PAM_PERM_DENIED whatever its control line says.", "quantifier": "all integers, all controls", "why_tests_cant": "2^32 values x controls", "anchors": ["libpam/pam_dispatch.c:_pam_dispatch_aux"]}
{"id": "C10", "title": "Control expressions: exact table or all-bad", "statement": "A bracketed control [v1=a1 v2=a2 ...] built from legal return names and actions yields exactly the documented 32-entry action table (later entries override, default fills what is unset so far, unmentioned values are bad); any string that is not such a list makes every return value 'bad'. Jump numbers are accepted exactly in 1..INT_MAX.", "quantifier": "all strings", "why_tests_cant": "infinite input space", "anchors": ["libpam/pam_misc.c:_pam_parse_control", "libpam/pam_misc.c:_pam_set_default_control", "libpam/pam_tokens.h"]}
{"id": "C11", "title": "Keyword controls equal their documented bracket forms", "statement": "required, requisite, sufficient and optional have precisely the action tables of the bracket expressions documented in pam.conf(5).", "quantifier": "all 32 return values of the four keywords", "why_tests_cant": "documentation equivalence at every table entry", "anchors": ["libpam/pam_handlers.c:_pam_parse_conf_file"]}
{"id": "C12", "title": "Module argument splitting", "statement": "Any list of argument strings written with the documented quoting (square brackets, \\] for ]) on a configuration line reaches the module as exactly that argc/argv; splitting never produces more than the input length of arguments and never reads past the string.", "quantifier": "all argument lists", "why_tests_cant": "all strings", "anchors": ["libpam/pam_misc.c:_pam_tokenize", "libpam/pam_misc.c:_pam_mkargv"]}
{"id": "C13", "title": "Include/substack loading terminates and is depth bounded", "statement": "Loading any set of configuration files, including files that include themselves or each other, terminates; no stack entry has a nesting level of PAM_SUBSTACK_MAX_LEVEL or more; an include that is too deep or unreadable leaves an entry in the stack that fails.", "quantifier": "all file systems of configuration files, cyclic or not", "why_tests_cant": "cycles and depth are unbounded", "anchors": ["libpam/pam_handlers.c:_pam_load_conf_file", "libpam/pam_handlers.c:_pam_parse_conf_file"]}
{"id": "C14", "title": "Malformed lines fail closed", "statement": "Every configuration line selected for the service which lacks a type, control or module, or whose control cannot be parsed, puts an entry into the stack that reports failure when the stack is run; no malformed line is silently dropped.", "quantifier": "all lines", "why_tests_cant": "all byte strings", "anchors": ["libpam/pam_handlers.c:_pam_parse_conf_file", "libpam/pam_handlers.c:_pam_add_handler"]}
{"id": "C15", "title": "Logical configuration lines", "statement": "The sequence of logical lines read from a file is determined by the documented rules: leading blanks are skipped, '#' starts a comment that ends the line, a backslash at the end of a line joins it to the next one with the replacement character, empty lines are skipped, and a continuation cut by end of file is an error; reading terminates.", "quantifier": "all file contents", "why_tests_cant": "all byte strings", "anchors": ["libpam_internal/pam_line.c:_pam_line_assemble"]}
{"id": "C16", "title": "Handlers come from the right lines in the right order", "statement": "The auth/account/session/password stack of a service consists of exactly the lines of that type, in file order with includes expanded in place; includes contribute only lines of the including line's type; the 'other' service is used for a function only if the service's own stack for that function is empty.", "quantifier": "all configurations and functions", "why_tests_cant": "all configurations", "anchors": ["libpam/pam_handlers.c:_pam_parse_conf_file", "libpam/pam_handlers.c:_pam_init_handlers", "libpam/pam_dispatch.c:_pam_dispatch"]}
{"id": "C17", "title": "A service name cannot select a file outside the configuration directories", "statement": "The policy file opened for a handle lies directly in a PAM configuration directory, whatever service name was given to the library.", "quantifier": "all service names", "why_tests_cant": "all strings", "anchors": ["libpam/pam_start.c:_pam_start_internal", "libpam/pam_handlers.c:_pam_open_config_file", "libpam/pam_item.c:pam_set_item"]}
{"id": "C18", "title": "PAM environment is a map", "statement": "After any sequence of pam_putenv calls, pam_getenv(name) returns the value most recently put and not deleted since, NULL otherwise; pam_getenvlist returns each variable exactly once; failed calls report the documented codes.", "quantifier": "all histories of putenv/getenv/getenvlist", "why_tests_cant": "unbounded histories", "anchors": ["libpam/pam_env.c:pam_putenv", "libpam/pam_env.c:pam_getenv", "libpam/pam_env.c:pam_getenvlist"]}
{"id": "C19", "title": "Environment storage invariants under memory exhaustion", "statement": "Whatever allocations fail, pam_putenv/pam_getenv never access the list out of bounds, the list stays NULL-terminated with no duplicate names, variables other than the one being set are unchanged, and failure is reported as PAM_BUF_ERR.", "quantifier": "all histories x all allocation failure points", "why_tests_cant": "failure points x histories", "anchors": ["libpam/pam_env.c:pam_putenv", "libpam/pam_env.c:_pam_search_env"]}
{"id": "C20", "title": "Module data: map semantics and exactly-once cleanup", "statement": "pam_get_data returns the last value a module stored under the name; each stored object is passed to its cleanup function exactly once, with PAM_DATA_REPLACE when it is replaced and with the pam_end status at the end, never while still retrievable.", "quantifier": "all histories of set/get ending in pam_end", "why_tests_cant": "unbounded histories", "anchors": ["libpam/pam_data.c:pam_set_data", "libpam/pam_data.c:pam_get_data", "libpam/pam_data.c:_pam_free_data"]}
{"id": "C21", "title": "Failure delay is the largest requested", "statement": "On a failing pam_authenticate/pam_chauthtok the delay used is based on the largest value requested with pam_fail_delay since the previous such call completed; on success no delay is taken.", "quantifier": "all histories of requests and calls", "why_tests_cant": "unbounded histories", "anchors": ["libpam/pam_delay.c:pam_fail_delay", "libpam/pam_delay.c:_pam_await_timer"]}
{"id": "C22", "title": "Failure delay is within 50% of the base", "statement": "The randomised delay lies within +/-50% of the requested base for every random value and base, and computing it never overflows.", "quantifier": "all 32-bit bases and random draws", "why_tests_cant": "2^128 draws", "anchors": ["libpam/pam_delay.c:_pam_compute_delay"]}
{"id": "C23", "title": "Applications cannot see or set passwords", "statement": "An application (code running outside a module call) never obtains PAM_AUTHTOK or PAM_OLDAUTHTOK through pam_get_item and cannot change them through pam_set_item, in any state of the handle; module data is likewise inaccessible to it.", "quantifier": "all histories of API calls by application and modules", "why_tests_cant": "all histories", "anchors": ["libpam/pam_item.c:pam_set_item", "libpam/pam_item.c:pam_get_item", "libpam/pam_data.c"]}
{"id": "C24", "title": "Passwords do not survive a completed call", "statement": "Once pam_authenticate or pam_chauthtok returns anything but PAM_INCOMPLETE, the handle holds no authentication token, whatever the modules did; a fresh call starts with none.", "quantifier": "all module behaviours and histories", "why_tests_cant": "arbitrary modules", "anchors": ["libpam/pam_misc.c:_pam_sanitize", "libpam/pam_auth.c", "libpam/pam_password.c"]}
{"id": "C25", "title": "Items are independent last-write-wins cells", "statement": "pam_get_item returns the last value successfully set for that item type; setting one item type changes no other; the service name is lower-cased; failed sets leave the item unchanged.", "quantifier": "all histories and item types", "why_tests_cant": "all histories", "anchors": ["libpam/pam_item.c:pam_set_item", "libpam/pam_item.c:pam_get_item"]}
{"id": "C26", "title": "pam_get_user", "statement": "pam_get_user returns the known user without prompting; otherwise prompts at most once, remembers the answer as PAM_USER, remembers a definitive failure, and on PAM_CONV_AGAIN resumes only with the same prompt.", "quantifier": "all conversation behaviours and histories", "why_tests_cant": "all conversation schedules", "anchors": ["libpam/pam_item.c:pam_get_user"]}
{"id": "C27", "title": "Two-phase password change", "statement": "pam_chauthtok runs the update phase only after the preliminary phase of the same request has succeeded over the whole stack; the application cannot select a phase itself; suspension in either phase resumes in that phase.", "quantifier": "all stacks, module behaviours and suspension schedules", "why_tests_cant": "all schedules", "anchors": ["libpam/pam_password.c:pam_chauthtok"]}
{"id": "C28", "title": "Modules cannot re-enter the application interface", "statement": "While a module runs, pam_authenticate, pam_setcred, pam_acct_mgmt, pam_open_session, pam_close_session, pam_chauthtok and pam_end called on the same handle return PAM_SYSTEM_ERR and change nothing; after every management call control is back with the application.", "quantifier": "all module behaviours", "why_tests_cant": "arbitrary modules", "anchors": ["libpam/pam_auth.c", "libpam/pam_session.c", "libpam/pam_account.c", "libpam/pam_password.c", "libpam/pam_end.c"]}
{"id": "C29", "title": "Local user lookup", "statement": "pam_modutil_check_user_in_passwd reports success exactly when some line of the file starts with the user name followed by ':', for a non-empty name without ':'.", "quantifier": "all file contents and names", "why_tests_cant": "all byte strings; the scanner works byte by byte with shared state across lines", "anchors": ["libpam/pam_modutil_check_user.c"]}
{"id": "C30", "title": "Complete reads and writes", "statement": "pam_modutil_read/pam_modutil_write transfer exactly the requested number of bytes, in order, however the kernel splits or interrupts the transfer, stopping early only at end of file or error; never beyond the buffer.", "quantifier": "all splittings and interrupts", "why_tests_cant": "all schedules", "anchors": ["libpam/pam_modutil_ioloop.c"]}
{"id": "C31", "title": "Privilege drop and regain", "statement": "If pam_modutil_drop_priv fails, the file-system uid/gid and groups are as before; if it succeeds and pam_modutil_regain_priv succeeds, the original credentials are restored; double drop and regain without drop are refused.", "quantifier": "all credential states and system-call outcomes", "why_tests_cant": "all failure points", "anchors": ["libpam/pam_modutil_priv.c"]}
{"id": "C32", "title": "Password hand-over to helpers", "statement": "pam_read_passwords returns exactly the NUL-terminated passwords written by the peer, for any split of the byte stream into reads, never writes outside a buffer, and leaves no unrequested password bytes in the buffers.", "quantifier": "all byte streams and all read splittings", "why_tests_cant": "all schedules", "anchors": ["libpam/include/pam_inline.h:pam_read_passwords"]}
{"id": "C33", "title": "Constant-time comparison is equality", "statement": "pam_consttime_streq(a,b) is true exactly when the strings are equal (case-insensitively equal for the case variant), reads only within both strings, and performs strlen(a)+1 steps whatever the secret is.", "quantifier": "all pairs of strings", "why_tests_cant": "all pairs", "anchors": ["libpam/include/pam_inline.h:pam_consttime_streq", "libpam/include/pam_inline.h:pam_consttime_strcaseeq"]}
{"id": "C34", "title": "Failed-login lockout (pam_faillock)", "statement": "After deny failures recorded within fail_interval, pam_faillock preauth denies until unlock_time has passed since the latest failure, and does not deny earlier; a success clears the count; the tally file never exceeds its record limit.", "quantifier": "all histories of attempts and clock readings", "why_tests_cant": "unbounded histories", "anchors": ["modules/pam_faillock/pam_faillock.c", "modules/pam_faillock/faillock.c"]}
{"id": "C35", "title": "Shadow password aging", "statement": "The account verdict of pam_unix is the documented function of the shadow fields and the current day (expired account, forced change, inactive, expired password, warning, too recent), for all field values including disabled (-1) ones, without arithmetic overflow.", "quantifier": "all 64-bit field values and days", "why_tests_cant": "2^448 inputs", "anchors": ["modules/pam_unix/passverify.c:check_shadow_expiry"]}
{"id": "C36", "title": "Unix password verification decision", "statement": "verify_pwd_hash accepts a password only if it hashes to the stored hash (or both are empty and empty passwords are allowed); locked ('!','*') and missing hashes never verify.", "quantifier": "all passwords, hashes and hash functions", "why_tests_cant": "all strings", "anchors": ["modules/pam_unix/passverify.c:verify_pwd_hash"]}
{"id": "C37", "title": "Time rules (pam_time)", "statement": "A rule field's boolean expression over names with '!', '&', '|' is evaluated left to right as documented, a time range admits exactly the documented minutes of the marked days (including ranges over midnight), and access is denied exactly when a rule matching service, tty and user is outside its times.", "quantifier": "all rule strings, all times", "why_tests_cant": "all strings x times", "anchors": ["modules/pam_time/pam_time.c:logic_field", "modules/pam_time/pam_time.c:check_time", "modules/pam_time/pam_time.c:is_same"]}
{"id": "C38", "title": "libpamc binary prompt codec and agent names", "statement": "A binary prompt built with the documented macros reads back with the same control, length and data; an agent identifier is accepted only if all its characters are legal.", "quantifier": "all lengths, controls, data and identifiers", "why_tests_cant": "all strings", "anchors": ["libpamc/include/security/pam_client.h", "libpamc/pamc_load.c:__pamc_valid_agent_id", "libpamc/pamc_converse.c"]}
{"id": "C39", "title": "misc_conv answers every message or none", "statement": "misc_conv returns PAM_SUCCESS with exactly one response slot per message, in order, containing what the user typed (without the newline), or PAM_CONV_ERR with nothing left allocated.", "quantifier": "all message lists and inputs", "why_tests_cant": "all inputs", "anchors": ["libpam_misc/misc_conv.c"]}
{"id": "C40", "title": "Configuration read errors are reported", "statement": "If reading a configuration file breaks off with an error, loading the configuration reports an error instead of continuing with the lines read so far.", "quantifier": "all file contents and all positions of the error", "why_tests_cant": "needs fault injection at every position of every file", "anchors": ["libpam_internal/pam_line.c:_pam_line_assemble"]}
{"id": "C41", "title": "A resumed call covers the whole stack in force", "statement": "When a management call suspended with PAM_INCOMPLETE is resumed and completes, every module of the stack in force has been run or passed over by a control decision of that stack, also when the application set PAM_SERVICE in between.", "quantifier": "all stacks, module behaviours, suspension points and service changes", "why_tests_cant": "suspension combined with reconfiguration is a rare interleaving", "anchors": ["libpam/pam_dispatch.c:_pam_dispatch_aux", "libpam/pam_item.c:pam_set_item", "libpam/pam_handlers.c:_pam_init_handlers"]}
{"id": "C42", "title": "New passwords are typed twice", "statement": "While a password is changed, pam_get_authtok stores a new password that was not known before only if the user typed it twice, the same both times, at prompts without echo; pam_get_authtok_verify succeeds only if the user typed the password again, and otherwise drops it.", "quantifier": "all conversation behaviours, options, prompts, allocation failures and histories", "why_tests_cant": "all conversation schedules and histories", "anchors": ["libpam/pam_get_authtok.c:pam_get_authtok_internal", "libpam/pam_get_authtok.c:pam_get_authtok_verify"]}
{"id": "C43", "title": "Descriptors of helper programs", "statement": "When pam_modutil_sanitize_helper_fds succeeds, standard input, output and error are redirected as the three modes ask (the read end of a fresh pipe without writer, /dev/null, or unchanged) and every other descriptor is closed; when it fails no descriptor above standard output changed.", "quantifier": "all descriptor tables (including closed standard descriptors), modes and system-call outcomes", "why_tests_cant": "all descriptor tables and failure points", "anchors": ["libpam/pam_modutil_sanitize.c"]}
{"id": "C44", "title": "Configuration key lookup", "statement": "pam_modutil_search_key returns the value assigned by the first line of the file whose key is the one asked for (comments, leading blanks and trailing blanks removed), and nothing only if no line assigns the key.", "quantifier": "all file contents and keys", "why_tests_cant": "all byte strings", "anchors": ["libpam/pam_modutil_searchkey.c"]}
{"id": "C45", "title": "Group membership", "statement": "pam_modutil_user_in_group answers yes exactly when the group is the user's primary group, lists the user as a member, or is among the user's group list.", "quantifier": "all users, groups, group databases and allocation failures", "why_tests_cant": "all databases, including group lists longer than any buffer", "anchors": ["libpam/pam_modutil_ingroup.c"]}
{"id": "C46", "title": "pam_unix options", "statement": "Each documented option word given to pam_unix sets exactly the flags it documents and, apart from the groups documented as exclusive (hash methods, first-pass options, debug/quiet), leaves the others alone; numeric options hold the number written, clamped to the documented range; the flags of the call (PAM_SILENT, PAM_PRELIM_CHECK, PAM_UPDATE_AUTHTOK, PAM_DISALLOW_NULL_AUTHTOK) are taken over.", "quantifier": "all argument vectors, flags and login.defs contents", "why_tests_cant": "all argument lists of any length and order", "anchors": ["modules/pam_unix/support.c:_set_ctrl", "modules/pam_unix/support.h"]}
{"id": "C47", "title": "Modules run only from a completely read configuration", "statement": "Whenever a management call walks a stack, the handlers of the handle are the complete result of successfully reading the configuration of the service named by PAM_SERVICE at that time; when that reading fails no module runs, the call fails and the next call reads again.", "quantifier": "all applications, modules, conversations, configurations and failures", "why_tests_cant": "unbounded histories of calls by arbitrary applications and modules", "anchors": ["libpam/pam_handlers.c:_pam_init_handlers", "libpam/pam_dispatch.c:_pam_dispatch", "libpam/pam_item.c:pam_set_item"]}
{"id": "C48", "title": "unix_chkpwd tells an ordinary user only about themself", "statement": "The set-uid helper unix_chkpwd, run by a user other than root for another user's name, gives an answer that does not depend on the contents of the shadow file; run for any name, the answer depends on no other user's entries; it confirms a password only if the password sent by the module (at most 512 characters) is right for the hash field, and confirms a right one when its system calls work.", "quantifier": "all users, databases, arguments, inputs and ways the kernel splits reads", "why_tests_cant": "non-interference over all databases and inputs", "anchors": ["modules/pam_unix/unix_chkpwd.c:main", "modules/pam_unix/passverify.c:helper_verify_password", "modules/pam_unix/support.c:_unix_run_helper_binary"]}
{"id": "C49", "title": "pam_unix lets in only with the right password", "statement": "pam_sm_authenticate of pam_unix succeeds only if the password obtained is right for the user's hash field, or empty passwords are allowed and the empty one is right; the third and later failures in a row for one user in one handle are PAM_MAXTRIES; checking through the helper and checking directly agree; with likeauth pam_setcred repeats the result once.", "quantifier": "all databases, options, passwords, hash functions, helper outcomes and sequences of attempts", "why_tests_cant": "unbounded sequences of attempts and arbitrary environments", "anchors": ["modules/pam_unix/pam_unix_auth.c:pam_sm_authenticate", "modules/pam_unix/support.c:_unix_verify_password", "modules/pam_unix/support.c:_unix_blankpasswd"]}
{"id": "C50", "title": "Groups given by pam_group", "statement": "When memory suffices and group.conf consists of well-formed lines, pam_setcred of pam_group with PAM_ESTABLISH_CRED or PAM_REINITIALIZE_CRED sets the groups of the process to the ones it has followed by exactly the existing groups named in the rules that match service, terminal, user and time, in order; with other flags it changes nothing.", "quantifier": "all files of well-formed lines, all users, times and group databases", "why_tests_cant": "all files and databases", "anchors": ["modules/pam_group/pam_group.c:check_account", "modules/pam_group/pam_group.c:mkgrplist"]}
{"id": "C51", "title": "libpamc agents: started from the path only, never when disabled, spoken to exactly", "statement": "However a client uses pamc_load, pamc_disable and pamc_converse, every program started is the file with the agent's name in a directory of the search path, no agent runs twice, an agent disabled before it runs is never started; a prompt reaches the selected agent whole and its answer comes back whole, however the kernel splits reads and writes; pamc_list_agents returns the sorted available agents.", "quantifier": "all call sequences, prompts, answers, search paths, directories and kernel behaviours", "why_tests_cant": "unbounded call sequences and all splits of reads and writes", "anchors": ["libpamc/pamc_load.c", "libpamc/pamc_converse.c", "libpamc/pamc_client.c:pamc_start"]}
{"id": "C52", "title": "pam_access: the first matching rule decides", "statement": "pam_access lets a user in unless, in the first table (accessfile, or access.conf followed by the files of access.d in the order of their names) that has a matching rule, the first matching rule denies, or a table before that cannot be read. A rule matches when the user is in its users list and the origin in its origins list, where a list 'A EXCEPT B' means A without B, nested to any depth; comments, blank and malformed lines and an unfinished last line are no rules.", "quantifier": "all tables, users, origins, separators, options, resolver answers and directories", "why_tests_cant": "all texts of tables and all environments", "anchors": ["modules/pam_access/pam_access.c:login_access", "modules/pam_access/pam_access.c:list_match", "modules/pam_access/pam_access.c:pam_sm_authenticate"]}
{"id": "C53", "title": "pam_access: what the words of a rule mean", "statement": "In the origins list network/n stands for exactly the hosts with an address of that family whose first n bits are the network's, network/mask for those that agree where the mask has ones, an address for itself, '.domain' for the hosts whose name ends in it, 'a.b.' for the hosts with an IPv4 address starting with these octets, LOCAL for local origins only, ALL for everything, @group for a netgroup; in the users list a word stands for the user with that name or uid, (g) for the members of the group with that name or number, @g and @@g for netgroups, u@h for u on the machine h.", "quantifier": "all addresses of both families, all prefix lengths, names and resolver answers", "why_tests_cant": "2^128 addresses and arbitrary words", "anchors": ["modules/pam_access/pam_access.c:network_netmask_match", "modules/pam_access/pam_access.c:remote_match", "modules/pam_access/pam_access.c:user_match", "modules/pam_access/pam_access.c:are_addresses_equal", "modules/pam_access/pam_access.c:number_to_netmask"]}
{"id": "C54", "title": "pam_timestamp's SHA-1 is SHA-1", "statement": "sha1_output after sha1_init and any sequence of sha1_update calls gives the SHA-1 digest (FIPS 180-4) of the concatenated data, whatever the sizes of the pieces; looking at an intermediate digest does not disturb later ones.", "quantifier": "all sequences of pieces of octets", "why_tests_cant": "unboundedly many messages and ways to cut them", "anchors": ["modules/pam_timestamp/sha1.c:sha1_process", "modules/pam_timestamp/sha1.c:sha1_update", "modules/pam_timestamp/sha1.c:sha1_output"]}
{"id": "C55", "title": "pam_timestamp's HMAC is HMAC-SHA-1", "statement": "hmac_sha1_generate returns HMAC-SHA-1 (RFC 2104) of the text under the key, for keys shorter and longer than a block; a key below the minimum length yields no code.", "quantifier": "all keys and texts", "why_tests_cant": "arbitrary keys and texts", "anchors": ["modules/pam_timestamp/hmacsha1.c:hmac_sha1_generate"]}
{"id": "C56", "title": "pam_unix's MD5 is MD5", "statement": "MD5Init, any sequence of MD5Update calls and MD5Final give the MD5 digest (RFC 1321) of the concatenated data, whatever the sizes of the pieces and the previous contents of the buffers.", "quantifier": "all sequences of pieces, both byte orders, both compiled variants", "why_tests_cant": "unboundedly many messages and machine types", "anchors": ["modules/pam_unix/md5.c:MD5Update", "modules/pam_unix/md5.c:MD5Final", "modules/pam_unix/md5.c:MD5Transform"]}
{"id": "C57", "title": "MD5-crypt hashes verify", "statement": "crypt_md5(password, salt) is the MD5-crypt hash: magic, at most eight characters of salt and the 22 characters of the digest; hashing the password again with the stored hash as salt gives that hash, so the stored password is accepted, and a password whose digest differs is refused.", "quantifier": "all passwords and salts", "why_tests_cant": "arbitrary passwords and salts; 1000 rounds each", "anchors": ["modules/pam_unix/md5_crypt.c:crypt_md5", "modules/pam_unix/passverify.c:verify_pwd_hash"]}
{"id": "C58", "title": "The timestamp file's name and window", "statement": "The name of pam_timestamp's file is the directory (checked: every existing part owned by root and writable by nobody else), the requesting user, the terminal's last component and, unless it is the same, the target user; different requesters, terminals and targets have different files; a stamp is good for timestamp_timeout seconds and only if the requester logged in before it.", "quantifier": "all arguments, items, directory states, times, utmp contents", "why_tests_cant": "arbitrary directory trees, names, times and utmp contents", "anchors": ["modules/pam_timestamp/pam_timestamp.c:check_dir_perms", "modules/pam_timestamp/pam_timestamp.c:get_timestamp_name", "modules/pam_timestamp/pam_timestamp.c:timestamp_good", "modules/pam_timestamp/pam_timestamp.c:check_login_time"]}
{"id": "C59", "title": "A timestamp vouches for a session", "statement": "pam_timestamp authenticates only if a session was opened successfully before, under the same file name, at a time within the window and not before the login; a file it accepts is root's, regular and signed with the key; conversely after such a session authentication succeeds if nothing fails. A call that fails leaves the module working and the key is never overwritten.", "quantifier": "all sequences of sessions, authentications, checks and removals, with any failures of the system calls", "why_tests_cant": "unbounded histories with failures at every call", "anchors": ["modules/pam_timestamp/pam_timestamp.c:pam_sm_authenticate", "modules/pam_timestamp/pam_timestamp.c:pam_sm_open_session", "modules/pam_timestamp/hmacsha1.c:hmac_key_read", "modules/pam_timestamp/hmacsha1.c:hmac_sha1_generate_file"]}
{"id": "C60", "title": "pam_timestamp_check agrees with the module", "statement": "pam_timestamp_check exits with 0 only when the module would accept the timestamp, hence only after a session was opened; after -k succeeded the module refuses and no other file is changed.", "quantifier": "all sequences as in C59", "why_tests_cant": "unbounded histories", "anchors": ["modules/pam_timestamp/pam_timestamp.c:main"]}
{"id": "C61", "title": "pam_listfile decides by membership", "statement": "With file=, onerr=, sense= and item= given, pam_listfile looks whether the value of the item (the user's groups or shell for group and shell) is one of the entries of the file; sense=allow succeeds exactly then, sense=deny exactly otherwise. A list that is missing, no regular file or writable by others gives what onerr says, and missing or unknown settings fail. A rule limited by apply= to another user or group is ignored.", "quantifier": "all arguments, list contents, users, items and databases", "why_tests_cant": "arbitrary argument orders and file contents", "anchors": ["modules/pam_listfile/pam_listfile.c:pam_sm_authenticate"]}
{"id": "C62", "title": "pam_succeed_if needs every condition", "statement": "pam_succeed_if succeeds exactly when there is a user to examine and its words, options aside, are conditions (attribute, relation, value) each of which holds: numbers are compared as numbers, texts as texts, lists and groups by membership. The first condition that does not hold decides the code and an incomplete condition is an error.", "quantifier": "all argument lists, users and databases", "why_tests_cant": "unbounded argument lists and number texts", "anchors": ["modules/pam_succeed_if/pam_succeed_if.c:evaluate", "modules/pam_succeed_if/pam_succeed_if.c:pam_sm_authenticate"]}
{"id": "C63", "title": "pam_securetty limits root's terminals", "statement": "pam_securetty lets every user but root (uid 0, or unknown user) through. Root succeeds when the terminal's name without /dev/ is an entry of the list in force, or, unless noconsole is given, the kernel console on the command line or an active console, and is refused otherwise; a list that others can write or that is no regular file refuses root.", "quantifier": "all arguments, terminals, list contents, command lines and databases", "why_tests_cant": "arbitrary file contents and terminal names", "anchors": ["modules/pam_securetty/pam_securetty.c:securetty_perform_check"]}
{"id": "C64", "title": "pam_wheel follows group membership", "statement": "For a request it looks at, pam_wheel refuses exactly those outside the group (with deny: inside it), succeeds for the rest only with trust and otherwise is ignored. The asker is the login user, with use_uid the calling user, and the remote user only when no login is known and the request is local; the group is that of the last group=, else wheel, else group 0.", "quantifier": "all arguments, users, groups and memberships", "why_tests_cant": "unbounded argument lists and databases", "anchors": ["modules/pam_wheel/pam_wheel.c:perform_check"]}
{"id": "C65", "title": "pam_nologin stops users, pam_shells checks shells", "statement": "While the notice in force can be opened pam_nologin never lets anyone but root through, and shows its text; without a notice everyone passes. pam_shells succeeds exactly if the user's shell is an absolute path on a line of an /etc/shells that others cannot write.", "quantifier": "all arguments, users, file contents and failures", "why_tests_cant": "arbitrary file contents and sizes", "anchors": ["modules/pam_nologin/pam_nologin.c:perform_check", "modules/pam_shells/pam_shells.c:perform_check"]}
{"id": "C66", "title": "User types and failure delays follow the settings", "statement": "Every valid uid is exactly one of system and regular: system if it is the overflow uid or below UID_MIN and at most SYS_UID_MAX, where settings that are not numbers below 2^32-1 count as absent. pam_faildelay sets the delay of the last delay= if all are valid, else FAIL_DELAY seconds, always within an unsigned int.", "quantifier": "all arguments, uids and settings", "why_tests_cant": "unbounded number texts and argument lists", "anchors": ["modules/pam_usertype/pam_usertype.c:pam_usertype", "modules/pam_faildelay/pam_faildelay.c:pam_sm_authenticate"]}
{"id": "C67", "title": "pam_umask computes the documented mask", "statement": "The session's mask is the last umask= option's, or that of login.defs or default/login, unchanged if that is no octal number; with user private groups the group digit becomes the owner digit; the last umask= field of GECOS wins over all. pri= and ulimit= fields take effect in order.", "quantifier": "all arguments, settings, GECOS texts and initial masks", "why_tests_cant": "unbounded texts; overflow", "anchors": ["modules/pam_umask/pam_umask.c:pam_sm_open_session"]}
{"id": "C68", "title": "Remembered passwords are refused", "statement": "check_old_pass refuses a new password exactly if it hashes to one of the hashes recorded for the user in the history file; with too little memory it still never accepts one that does.", "quantifier": "all users, passwords, history file contents and allocation outcomes", "why_tests_cant": "arbitrary file contents; allocation failures", "anchors": ["modules/pam_pwhistory/opasswd.c:check_old_pass"]}
{"id": "C69", "title": "Saving a password keeps a bounded history", "statement": "save_old_pass changes no other file, changes nothing when it fails, keeps the old file as the backup and its mode and owners, leaves the records of other users as they are, and gives the user a record of at most as many hashes as are to be remembered, ending in the current one, which is then refused as a new password.", "quantifier": "all users, history file contents, limits and outcomes of the file operations", "why_tests_cant": "arbitrary file contents and failures of each system call", "anchors": ["modules/pam_pwhistory/opasswd.c:save_old_pass"]}
{"id": "C70", "title": "pam_pwhistory only lets unused passwords through", "statement": "When pam_pwhistory succeeds for somebody it is enforced for, there is a new password that is neither the current one nor one of those remembered. It asks at most retry times. The options are the last of each kind, else those of the configuration file, else 10 passwords and one try, with the number of passwords within 0 and 400.", "quantifier": "all arguments, configuration values, answers, history files and failures", "why_tests_cant": "unbounded argument lists and answers; number overflow", "anchors": ["modules/pam_pwhistory/pam_pwhistory.c:pam_sm_chauthtok", "modules/pam_pwhistory/pwhistory_config.c:parse_config_file"]}
{"id": "C71", "title": "Values of pam_env.conf expand as documented", "statement": "_expand_arg computes, for every text, environment and set of items and without undefined behaviour, the text with ${VAR} and @{ITEM} replaced by what pam_getenv and the items give, \\$, \\@ and \\\\ unescaped and a single backslash dropped; it fails exactly for an unclosed brace or for lack of memory.", "quantifier": "all texts, environments, items and allocation outcomes", "why_tests_cant": "unbounded texts; buffer growth and in-place overwriting with every allocation outcome", "anchors": ["modules/pam_env/pam_env.c:_expand_arg", "modules/pam_env/pam_env.c:_strbuf_reserve"]}
{"id": "C72", "title": "A configuration file sets what its lines say", "statement": "Every line of pam_env.conf asks for exactly one thing: it is malformed, or sets NAME to OVERRIDE's value, or to DEFAULT's when that is empty, or unsets it. Reading a file changes only variables its lines name, whatever memory does; on success the last line that names a variable counts; a malformed line changes nothing.", "quantifier": "all file contents, environments, items and allocation outcomes", "why_tests_cant": "arbitrary file contents and quoting; allocation failures at every point", "anchors": ["modules/pam_env/pam_env.c:_parse_config_file", "modules/pam_env/pam_env.c:_parse_line", "modules/pam_env/pam_env.c:_check_var"]}
{"id": "C73", "title": "The environment file only sets plain variables", "statement": "Reading /etc/environment changes only variables whose names consist of letters, digits and underscores and that a line asks for; lines are NAME=value, with export in front and quotes around the value dropped, or NAME to unset; the last line for a name counts; with memory it always succeeds.", "quantifier": "all file contents, environments and allocation outcomes", "why_tests_cant": "arbitrary file contents", "anchors": ["modules/pam_env/pam_env.c:_parse_env_file"]}
{"id": "C74", "title": "The user's environment file is read with the user's privileges", "statement": "pam_env opens the configuration file, then the environment file unless readenv=0, then the user's file only if user_readenv is not 0, the file exists and the user's privileges have been taken on; they are given up again afterwards, and the module fails when that cannot be done. The options are the last of each kind. Variables no file names keep their values.", "quantifier": "all options, users, files and failures", "why_tests_cant": "all combinations of options and failures", "anchors": ["modules/pam_env/pam_env.c:handle_env", "modules/pam_env/pam_env.c:_pam_parse"]}
{"id": "C75", "title": "New password hashes are well formed and verify", "statement": "create_password_hash draws salts uniformly (six bits for each character) from the 64-character alphabet; the hash it makes starts with the mark of the configured method or is a traditional hash of salt and eleven characters for each block; and the hash it makes for a non-empty password is always accepted by verify_pwd_hash for that password.", "quantifier": "all passwords below 2^31 bytes, salts, options and crypt functions that reuse the salt in the hash", "why_tests_cant": "all passwords, salts and methods", "anchors": ["modules/pam_unix/passverify.c:create_password_hash", "modules/pam_unix/passverify.c:crypt_make_salt", "modules/pam_unix/passverify.c:crypt_md5_wrapper"]}
{"id": "C76", "title": "Saving the old password keeps the other users' history", "statement": "On success save_old_password leaves the rows of all other users and owner and mode of opasswd as they were, and the user's row ends with a hash of the saved password, after the newest howmany-1 older ones; on failure opasswd is unchanged.", "quantifier": "all opasswd files of complete lines, users, passwords, limits, outcomes of the file operations", "why_tests_cant": "all file contents and failures", "anchors": ["modules/pam_unix/passverify.c:save_old_password"]}
{"id": "C77", "title": "Remembered passwords are refused", "statement": "check_old_password fails exactly for a password matching a hash of the user's row; so after any sequence of changes with remember=n none of the n last passwords is accepted again.", "quantifier": "all sequences of changes, all users and limits below INT_MAX", "why_tests_cant": "unbounded sequences of changes", "anchors": ["modules/pam_unix/pam_unix_passwd.c:check_old_password", "modules/pam_unix/passverify.c:save_old_password"]}
{"id": "C78", "title": "Writing a new hash changes the user's entry only", "statement": "On success unix_update_passwd and unix_update_shadow leave every entry but the user's as it is, put the hash into all of the user's entries (and the day of the change; the shadow file gets an entry if it had none) and keep owner and mode; on failure the files are unchanged. If all file operations work they succeed.", "quantifier": "all files, users, hashes, times and failures of file operations", "why_tests_cant": "all failures of system calls", "anchors": ["modules/pam_unix/passverify.c:unix_update_passwd", "modules/pam_unix/passverify.c:unix_update_shadow"]}
{"id": "C79", "title": "The set-user-id helper changes a password only for root or with the right password", "statement": "unix_update changes files only if called with user, \"update\" and two more arguments, not on a terminal and with privileges, while holding the password lock, and the caller is root or the user themself and has given the right current password on standard input; the lock is always given up. On success the hash read from standard input is stored.", "quantifier": "all arguments, inputs, users, files and failures", "why_tests_cant": "all inputs and failures", "anchors": ["modules/pam_unix/unix_update.c:main", "modules/pam_unix/unix_update.c:set_password"]}
{"id": "C80", "title": "pam_sm_chauthtok changes only local users' passwords, under the lock, with the old password", "statement": "The preliminary call changes nothing and succeeds only for a local user that is changed by root, or whose password is empty, or who gave the right password. The second call changes files only for a local user with PAM_OLDAUTHTOK, if set, being the right password, for a new password that is not empty, not the old one, at most 512 bytes and, unless by root, of the minimal length and not remembered; the lock is always given up. On success a hash is stored that is accepted for the new password.", "quantifier": "all users, options, answers, files and failures", "why_tests_cant": "all combinations of options, answers and failures", "anchors": ["modules/pam_unix/pam_unix_passwd.c:pam_sm_chauthtok", "modules/pam_unix/pam_unix_passwd.c:_do_setpass", "modules/pam_unix/pam_unix_passwd.c:_pam_unix_approve_pass"]}
{"id": "C81", "title": "pam_userdb lets in exactly with the password of the entry", "statement": "The last db= and crypt= argument count, words in any case; pam_sm_authenticate succeeds exactly if a database is named and can be opened, a password is had in the way the options ask for, and the user's entry matches it: equal text (case folded with icase), or crypt of it equal to the hash of at least 13 bytes, or with key_only an entry user-password. PAM_USER_UNKNOWN means there is no entry.", "quantifier": "all arguments, databases, users, passwords, crypt functions and allocation failures", "why_tests_cant": "all databases and arguments", "anchors": ["modules/pam_userdb/pam_userdb.c:_pam_parse", "modules/pam_userdb/pam_userdb.c:user_lookup", "modules/pam_userdb/pam_userdb.c:pam_sm_authenticate", "modules/pam_userdb/pam_userdb.c:obtain_authtok"]}
{"id": "C82", "title": "pam_userdb account check succeeds exactly for users present in the database", "statement": "pam_sm_acct_mgmt succeeds only for a user present in the named database, and for all of them when memory suffices; otherwise PAM_USER_UNKNOWN.", "quantifier": "all databases, users, arguments and allocation failures", "why_tests_cant": "all databases", "anchors": ["modules/pam_userdb/pam_userdb.c:pam_sm_acct_mgmt"]}
{"id": "C83", "title": "pam_limits: which configuration lines are for the user", "statement": "A line, without comment and white space around it, is a domain, a type, an item and a value, or a domain and a dash. It is for the user if its domain is the name, a group of the user's, a uid or gid range, %, %group or *; each domain has one precedence. The first line exempting the user ends the reading and nothing is set; other lines have no effect.", "quantifier": "all configuration texts, users and group databases", "why_tests_cant": "all texts and all users", "anchors": ["modules/pam_limits/pam_limits.c:parse_config_file", "modules/pam_limits/pam_limits.c:parse_uid_range", "modules/pam_limits/pam_limits.c:split"]}
{"id": "C84", "title": "pam_limits: values and precedence of limits", "statement": "For each resource the soft and the hard limit is the value of the last entry of the highest precedence (user, group, default) that gives one; values are numbers in the unit of the item, words for no limit, or nice values; too large values mean no limit.", "quantifier": "all sequences of entries, values and starting limits", "why_tests_cant": "all sequences of lines", "anchors": ["modules/pam_limits/pam_limits.c:process_limit", "modules/pam_limits/pam_limits.c:value_from_file"]}
{"id": "C85", "title": "pam_limits: the number of logins", "statement": "The login limit is that of the last entry of highest precedence; the login is refused exactly if it is 0, or this login and the counted ones (of the user, a group, or all) are more; root is never refused.", "quantifier": "all entries, utmp contents and limits", "why_tests_cant": "all utmp contents", "anchors": ["modules/pam_limits/pam_limits.c:check_logins", "modules/pam_limits/pam_limits.c:setup_limits", "modules/pam_limits/pam_limits.c:process_limit"]}
{"id": "C86", "title": "pam_limits: what opening a session does", "statement": "The files are conf=, or limits.conf and then limits.d in order. If one cannot be read the session fails and nothing is changed; if a line exempts the user nothing is changed. Otherwise exactly the resources with an entry (all with set_all) are set, the soft limit never above the hard one, then the priority and the flag for no new privileges; success exactly if every call worked and there are not too many logins.", "quantifier": "all systems, files, users and arguments", "why_tests_cant": "all configurations and failures of system calls", "anchors": ["modules/pam_limits/pam_limits.c:pam_sm_open_session", "modules/pam_limits/pam_limits.c:init_limits", "modules/pam_limits/pam_limits.c:setup_limits", "modules/pam_limits/pam_limits.c:_pam_parse"]}
{"id": "C87", "title": "pam_limits: the kernel's limits are read back", "statement": "With set_all, the text the kernel writes to /proc/1/limits for any 16 pairs of limits is read as these limits.", "quantifier": "all limits of 64 bits", "why_tests_cant": "all pairs of limits", "anchors": ["modules/pam_limits/pam_limits.c:parse_kernel_limits", "modules/pam_limits/pam_limits.c:str2rlimit", "modules/pam_limits/pam_limits.c:str2rlim_t"]}
{"id": "C88", "title": "pam_faillock: the settings in force", "statement": "A line of faillock.conf, up to a comment, is a name, white space with at most one equals sign, and a value. Every setting is given by the last valid line or argument that gives it, arguments coming after the file, or is the default; root_unlock_time is like unlock_time if it is not given. A missing or broken file named by conf= and a lack of memory are reported; the values are within the limits of the tally functions.", "quantifier": "all texts, arguments and failures of allocation", "why_tests_cant": "all texts and argument lists", "anchors": ["modules/pam_faillock/faillock_config.c:read_config_file", "modules/pam_faillock/faillock_config.c:set_conf_opt", "modules/pam_faillock/pam_faillock.c:args_parse"]}
{"id": "C89", "title": "pam_motd: which messages are shown, in which order", "statement": "Of the files the first that can be opened is shown. Of the directories every name that is a file or a symbolic link in one of them is shown once, in the order of strcmp, from the first directory where it can be opened. A message has 1 to 65536 bytes and is shown without one final newline. Everything is done with the privileges of the user; if these cannot be taken on, or with PAM_SILENT, nothing is shown. An option given again replaces the one before, an empty one takes it back, and the defaults hold if neither is given.", "quantifier": "all argument lists, file systems and failures of system calls", "why_tests_cant": "all directories and argument lists", "anchors": ["modules/pam_motd/pam_motd.c:pam_sm_open_session", "modules/pam_motd/pam_motd.c:try_to_display_directories_with_overrides", "modules/pam_motd/pam_motd.c:pam_split_string"]}
{"id": "C90", "title": "pam_echo: the text shown", "statement": "Without file= the arguments, with a space between them, are shown; with file= and a value the contents of that file without a final newline. %H %h %s %t %U %u stand for the items and the host name, (null) if there is none, and % before another character for that character. At most 511 bytes of the arguments and 511 bytes more than the message has are shown; no buffer is written outside its bounds; a message is shown only by the services that do so and without PAM_SILENT.", "quantifier": "all arguments, files, item values and failures", "why_tests_cant": "all texts and item values", "anchors": ["modules/pam_echo/pam_echo.c:pam_echo", "modules/pam_echo/pam_echo.c:replace_and_print"]}
{"id": "C91", "title": "pam_issue: the prompt", "statement": "The prompt is the text of the file with the escapes replaced (unless noesc is given), followed by the prompt that was there. It is set at most once in a process, is left alone when something fails, and the buffer is never written outside its bounds.", "quantifier": "all files, arguments, system data and failures", "why_tests_cant": "all files and failures of realloc", "anchors": ["modules/pam_issue/pam_issue.c:read_issue_quoted", "modules/pam_issue/pam_issue.c:pam_sm_authenticate"]}
{"id": "C92", "title": "pam_tty_audit: who is audited, and restoring the status", "statement": "The last enable= or disable= option with a pattern for the user decides; a pattern is a name pattern, a range min:max, min: or a uid :n. Without one nothing is changed. If opening the session fails the status of the process is unchanged. Closing the session brings back the status from before, unless open_only is given.", "quantifier": "all argument lists, users, kernel states and failures", "why_tests_cant": "all patterns and uids", "anchors": ["modules/pam_tty_audit/pam_tty_audit.c:pam_sm_open_session", "modules/pam_tty_audit/pam_tty_audit.c:parse_uid_range", "modules/pam_tty_audit/pam_tty_audit.c:pam_sm_close_session"]}
{"id": "C93", "title": "pam_namespace: opening a directory without following other users' links", "statement": "While others change the file system at will, the directory that is opened is reached through directories of root's that nobody else may write, and from the first other directory on without any link. Under SECURE_OPENDIR_PROTECT every later part of the path has been covered by a mount. No descriptor leaks, none of the caller's is closed, and every mount is recorded. Unmounting touches only what was opened in this way.", "quantifier": "all paths, all file systems changing at every call, all failures of calls", "why_tests_cant": "races between each pair of calls cannot be enumerated", "anchors": ["modules/pam_namespace/pam_namespace.c:secure_opendir", "modules/pam_namespace/pam_namespace.c:protect_mount", "modules/pam_namespace/pam_namespace.c:secure_umount"]}
{"id": "C94", "title": "pam_namespace: the configuration", "statement": "The configuration is taken as a whole: the entries of all lines of all files in order, or an error. An entry is what the words of its line say, with $HOME and $USER replaced, flags and mount options sorted out; its directory is absolute, short enough, without .. and without a slash at its end, and so is its prefix unless it is a tmpfs. An exclusive list of users restricts the entry to them, another exempts them. Parsing never writes outside its buffers.", "quantifier": "all files, lines, users, home directories and user databases", "why_tests_cant": "all quoted words, variables and option lists", "anchors": ["modules/pam_namespace/argv_parse.c:argv_parse", "modules/pam_namespace/pam_namespace.c:expand_variables", "modules/pam_namespace/pam_namespace.c:filter_mntopts", "modules/pam_namespace/pam_namespace.c:parse_method", "modules/pam_namespace/pam_namespace.c:process_line", "modules/pam_namespace/pam_namespace.c:parse_config_file", "modules/pam_namespace/pam_namespace.c:ns_override"]}
{"id": "C95", "title": "pam_namespace: names of instances, checks of paths, users", "statement": "An instance lies in the directory of the configured prefix, under a name made from user and context as the method says, shortened by a hash when it would be longer than 80 characters or when hashing is asked for; different users get different instances under the user method unless their hashes agree. A path counts as safe exactly if every directory above its last part is root's and not writable by others or sticky, links being root's. The session's user and the caller are those of PAM_USER and of the real user id.", "quantifier": "all prefixes, users, contexts, methods, hashes, files and paths", "why_tests_cant": "all names, lengths and hashes", "anchors": ["modules/pam_namespace/pam_namespace.c:poly_name", "modules/pam_namespace/pam_namespace.c:set_polydir_paths", "modules/pam_namespace/pam_namespace.c:check_safe_path", "modules/pam_namespace/pam_namespace.c:root_shared", "modules/pam_namespace/pam_namespace.c:get_user_data"]}
{"id": "C96", "title": "pam_namespace: mounting instances in a session", "statement": "While others change the file system at will, setting up an entry mounts once or not at all: a tmpfs or an instance that was found under its own name, not through a link, in a directory that root owns and nobody may use; and it mounts onto a directory reached by the entry's path. Owner and mode change only for directories made by the call. No descriptor leaks. A session leaves its parent's namespace exactly if an entry applies, does all entries in order or fails at the first that fails and cleans up.", "quantifier": "all entries, configurations, file systems changing at every call, failures of calls", "why_tests_cant": "races between each pair of calls cannot be enumerated", "anchors": ["modules/pam_namespace/pam_namespace.c:ns_setup", "modules/pam_namespace/pam_namespace.c:create_instance", "modules/pam_namespace/pam_namespace.c:create_polydir", "modules/pam_namespace/pam_namespace.c:check_inst_parent", "modules/pam_namespace/pam_namespace.c:setup_namespace", "modules/pam_namespace/pam_namespace.c:orig_namespace"]}
{"id": "C97", "title": "pam_exec: the program run, its descriptors, the password, the result", "statement": "A service call runs the program named by the first argument that is not an option, with the arguments after it, the PAM environment followed by variables for the items that are set and PAM_TYPE, and only if no type= option names another type. The program has no descriptors but the standard ones: stdin a pipe, with the password only if expose_authtok is given and the call is an authentication or a password change; stdout and stderr a pipe to the module, the log file or /dev/null. Once it was started the caller keeps exactly its descriptors. The call succeeds exactly if the program was run and ended with status 0. The copy of the password is wiped.", "quantifier": "all arguments, items, environments, tables of open descriptors, failures of each call, outputs and statuses of the program", "why_tests_cant": "every table of open descriptors of the caller, and failures at each step", "anchors": ["modules/pam_exec/pam_exec.c:call_exec", "modules/pam_exec/pam_exec.c:move_fd_to_non_stdio", "modules/pam_exec/pam_exec.c:pam_sm_authenticate", "modules/pam_exec/pam_exec.c:pam_sm_chauthtok", "modules/pam_exec/pam_exec.c:pam_sm_setcred"]}
{"id": "C98", "title": "pam_mkhomedir: what is made, whose it is and with which mode", "statement": "The helper changes nothing that was there before and nothing outside the home directory and its missing parents. While anything below the home directory is made, all directories above it up to the home directory are root's with mode 0700, every file is newly created before its mode, owner or contents are set, and is given to the user only. On success the home directory is a copy of the skeleton and, for names it lacks, of the vendor's directory, all of it the user's, without the permissions the umask takes away and without set-user-ID files. The module succeeds exactly if the home directory is there or the helper, run with the arguments the options determine, ends with success; otherwise its status is the result and the user is told unless silent. The helper always ends with one of five statuses.", "quantifier": "all skeletons and vendor directories, contents of the file system, failures of each call, umasks, modes, arguments and options", "why_tests_cant": "arbitrary directory trees with every combination of failing calls and of files already there", "anchors": ["modules/pam_mkhomedir/mkhomedir_helper.c:create_homedir", "modules/pam_mkhomedir/mkhomedir_helper.c:copy_entry", "modules/pam_mkhomedir/mkhomedir_helper.c:make_parent_dirs", "modules/pam_mkhomedir/mkhomedir_helper.c:main", "modules/pam_mkhomedir/pam_mkhomedir.c:create_homedir", "modules/pam_mkhomedir/pam_mkhomedir.c:pam_sm_open_session"]}
{"id": "C99", "title": "pam_ftp: anonymous users, their account, their address", "statement": "Authentication succeeds exactly for the names listed with users=, or ftp and anonymous, once the account name could be set and the conversation answered. PAM_USER is then the first name of the list, or ftp, and PAM_AUTHTOK is not changed; with the option ignore neither are PAM_RUSER and PAM_RHOST, otherwise they are the first two parts of the answer. Everybody else is asked for a password, which becomes PAM_AUTHTOK, no other item changes and the result is not success.", "quantifier": "all names, lists, options, items, answers of the conversation and failures", "why_tests_cant": "every list of names and every answer", "anchors": ["modules/pam_ftp/pam_ftp.c:lookup", "modules/pam_ftp/pam_ftp.c:pam_sm_authenticate"]}
{"id": "C100", "title": "Modules that decide by one question", "statement": "pam_rootok succeeds exactly for real user-ID 0 where SELinux, if enabled and enforcing, allows passwd:rootok. pam_rhosts succeeds exactly if the remote host and user are known and ruserok agrees, asked with the superuser's rule exactly for the name of the last superuser= option and for accounts with user-ID 0. pam_localuser succeeds exactly for names without a colon that have an entry in the file of the last file= option or /etc/passwd. pam_canonicalize_user never succeeds, and if it is ignored PAM_USER is the name in the account. pam_permit succeeds for every known name, nobody standing for the empty one. pam_debug returns the result named by the first argument for the service, success if there is none.", "quantifier": "all arguments, items, files, accounts and answers of the system", "why_tests_cant": "the complete set of arguments and answers", "anchors": ["modules/pam_rootok/pam_rootok.c:check_for_root", "modules/pam_rhosts/pam_rhosts.c:pam_sm_authenticate", "modules/pam_localuser/pam_localuser.c:pam_localuser", "modules/pam_canonicalize_user/pam_canonicalize_user.c:pam_sm_authenticate", "modules/pam_permit/pam_permit.c:pam_sm_authenticate", "modules/pam_debug/pam_debug.c:parse_args"]}
{"id": "C101", "title": "pam_keyinit: one keyring, made for the user, revoked once", "statement": "In any sequence of calls of pam_keyinit in one process, with any failures: there is at most one session keyring at a time; each is made during a call that knows the user, for that user and group; each is revoked once at most, with the ids it was made for, and only if some call had the option revoke. Closing keeps it while sessions are open and revokes it at the last one. With the option force, success means that there is a keyring. If ids can be set back, the process keeps its real and effective ids.", "quantifier": "all sequences of calls, options, users and failures", "why_tests_cant": "all interleavings of calls over the life of a process", "anchors": ["modules/pam_keyinit/pam_keyinit.c:init_keyrings", "modules/pam_keyinit/pam_keyinit.c:kill_keyrings", "modules/pam_keyinit/pam_keyinit.c:do_keyinit", "modules/pam_keyinit/pam_keyinit.c:pam_sm_setcred", "modules/pam_keyinit/pam_keyinit.c:pam_sm_open_session", "modules/pam_keyinit/pam_keyinit.c:pam_sm_close_session"]}
{"id": "C102", "title": "pam_loginuid: success means the login uid is the user's", "statement": "If pam_loginuid succeeds, /proc/self/loginuid holds the user-ID of PAM_USER in decimal, and if require_auditd is given the audit daemon is there or there can be none. PAM_IGNORE is returned only if the file does not exist or the process is in a user namespace of its own, a session error only for an unknown user, a missing daemon, or a file that cannot be written. The daemon is asked at most thirty times.", "quantifier": "all users, contents of the two files, answers of the kernel and failures", "why_tests_cant": "every content of uid_map and every sequence of netlink answers", "anchors": ["modules/pam_loginuid/pam_loginuid.c:set_loginuid", "modules/pam_loginuid/pam_loginuid.c:check_auditd", "modules/pam_loginuid/pam_loginuid.c:_pam_loginuid"]}
{"id": "C103", "title": "pam_xauth: cookies move only if both users agree", "statement": "pam_xauth does nothing except taking XAUTHORITY from the environment unless the invoking and the target user are known, the target is the superuser, the user of targetuser= or above systemuser=, and both have the same name or each of them agrees: the other one matches a line of ~/.xauth/export or ~/.xauth/import, read as its owner, or there is no such file (for export: not if the superuser invokes for somebody else). Programs are run only as the invoking user, to list the cookies of this display, or as the target user, to store exactly what was listed.", "quantifier": "all users, access lists, environments, options, outputs of programs and failures", "why_tests_cant": "every content of the two lists and every failure of the system", "anchors": ["modules/pam_xauth/pam_xauth.c:check_acl", "modules/pam_xauth/pam_xauth.c:run_coprocess", "modules/pam_xauth/pam_xauth.c:pam_sm_open_session"]}
{"id": "C104", "title": "pam_xauth: the file of the session and the variables", "statement": "If pam_xauth succeeds, either no file was made and XAUTHORITY is what it was, or exactly one file was made as the target user in the home directory, it is recorded, XAUTHORITY names it and it is what the end of the session removes, as the target user. After a failure XAUTHORITY is not set in the process, and a file that was made is recorded or removed. The end of the session removes nothing else.", "quantifier": "all environments, options, outputs of programs and failures", "why_tests_cant": "failures of every call, memory included", "anchors": ["modules/pam_xauth/pam_xauth.c:pam_sm_open_session", "modules/pam_xauth/pam_xauth.c:pam_sm_close_session"]}
{"id": "C105", "title": "pam_mail: the variable MAIL and the message about mail", "statement": "For a known user, pam_mail sets MAIL to the folder when a session or credentials begin and removes it when they end, unless noenv is given; the folder is where the last dir=, the last hash=, the home directory and the name put it. A message is shown only if mail is to be looked at (begin without nopen, end with close), PAM_SILENT is not set and, with quiet, only about new mail, and it says what stat and the directories new and cur say about that folder. A call that shows no message succeeds or fails with one of the listed errors for the listed reason; otherwise the result is that of the message.", "quantifier": "all options, users, folders, answers of the file system and failures", "why_tests_cant": "every combination of options, states of the folder and failures of memory, privileges and the conversation", "anchors": ["modules/pam_mail/pam_mail.c:_pam_parse", "modules/pam_mail/pam_mail.c:get_folder", "modules/pam_mail/pam_mail.c:get_mail_status", "modules/pam_mail/pam_mail.c:report_mail", "modules/pam_mail/pam_mail.c:_do_mail"]}
{"id": "C106", "title": "pam_sepermit: the first line about the user decides", "statement": "The result of pam_sepermit is that of the first line of the configuration whose first word, before a colon, is the user name, @ and a group of the user, or % and the SELinux user: authentication error if SELinux is not enforcing, otherwise success, or ignore with the option ignore. Without such a line the result is ignore, without the file a service error, without a user name user unknown. With the option exclusive, and only then, if the process is root and has no login uid, a lock is needed, without which the result is an authentication error.", "quantifier": "all users, configuration texts, groups, SELinux states, login uids and failures", "why_tests_cant": "every configuration text and every answer of the system", "anchors": ["modules/pam_sepermit/pam_sepermit.c:sepermit_match", "modules/pam_sepermit/pam_sepermit.c:pam_sepermit", "modules/pam_sepermit/pam_sepermit.c:get_loginuid"]}
{"id": "C107", "title": "pam_sepermit: an exclusive user is alone", "statement": "A lock is taken only if no process of the user is seen in /proc, the lock file can be opened and no other process has it; after the first call on a handle it is held and recorded. The end of the transaction kills exactly the processes of the user that are seen, again and again until none is, never those of the superuser, and gives the lock back after that; locks of other users stay.", "quantifier": "all contents of /proc at every moment, users, lock states and failures", "why_tests_cant": "processes coming and going between the passes", "anchors": ["modules/pam_sepermit/pam_sepermit.c:sepermit_lock", "modules/pam_sepermit/pam_sepermit.c:sepermit_unlock", "modules/pam_sepermit/pam_sepermit.c:check_running", "modules/pam_sepermit/pam_sepermit.c:match_process_uid"]}
{"id": "C108", "title": "pam_setquota: whose limits are set, where, and to what", "statement": "pam_setquota sets limits at most once in a session, and then succeeds: for a known user whose uid is in the range of startuid= (without it UID_MIN) and enduid=, on the file system of fs= or the one the module takes for that of the home directory, if there are no limits yet or overwrite= is 1, and if hard and soft limits are given together. The limits set are those read, with the last value of every option in their place, and just these are marked as valid. Otherwise nothing is set and the result says why: unknown user, success outside the range, ignore for limits that exist or none in the options, permission denied for everything else.", "quantifier": "all users, options, mounted file systems, limits read and failures", "why_tests_cant": "every list of mounted file systems and options, with every number text", "anchors": ["modules/pam_setquota/pam_setquota.c:pam_sm_open_session", "modules/pam_setquota/pam_setquota.c:parse_dqblk", "modules/pam_setquota/pam_setquota.c:parse_params", "modules/pam_setquota/pam_setquota.c:str_to_uid", "modules/pam_setquota/pam_setquota.c:str_to_dqb_num"]}
{"id": "C109", "title": "pam_lastlog: inactive users are locked out", "statement": "As a module for authentication or accounts pam_lastlog refuses exactly the known users, not root and not above LASTLOG_UID_MAX, who have a login in lastlog that is longer ago than the days of the last option inactive= in order (90 without one). It ignores the user if lastlog cannot be read, and passes everyone else. It writes nothing and says nothing. Who has logged in and been recorded is not locked out for that time.", "quantifier": "all users, options, records, times, lock states and failures", "why_tests_cant": "times of logins and of now, every number text", "anchors": ["modules/pam_lastlog/pam_lastlog.c:pam_auth", "modules/pam_lastlog/pam_lastlog.c:_pam_auth_parse", "modules/pam_lastlog/pam_lastlog.c:last_login_open", "modules/pam_lastlog/pam_lastlog.c:last_login_read", "modules/pam_lastlog/pam_lastlog.c:get_lastlog_uid_max"]}
{"id": "C110", "title": "pam_lastlog: logins are shown and recorded", "statement": "At the beginning of a session pam_lastlog says what the record of the user says, unless it is silent, and the number and the last of the failures in btmp since the last login if asked to. It records the login once at most, under the uid of the user and with the lock of the record, with time, terminal and host; on success it has done so, and has an entry in wtmp, unless the options forbid it or the uid is above LASTLOG_UID_MAX. The limit of file sizes is lifted with the option only, and set again or the result is an error.", "quantifier": "all users, options, records, btmp contents, lock states, limits and failures", "why_tests_cant": "every option list with every failure", "anchors": ["modules/pam_lastlog/pam_lastlog.c:pam_sm_open_session", "modules/pam_lastlog/pam_lastlog.c:last_login_date", "modules/pam_lastlog/pam_lastlog.c:last_login_read", "modules/pam_lastlog/pam_lastlog.c:last_login_write", "modules/pam_lastlog/pam_lastlog.c:last_login_failed", "modules/pam_lastlog/pam_lastlog.c:_pam_session_parse", "modules/pam_lastlog/pam_lastlog.c:pam_sm_close_session"]}
{"id": "C111", "title": "pam_selinux: the context of a session", "statement": "When pam_selinux opens a session the context of the session is the first one of the SELinux user of the user for the service, or the one that options ask for: that of the dialogue with the user, or with role and level from PAM variables or the range of the process. A role comes with its default type; a changed context must be valid and with MLS within the first one. Without such a context the session is refused if SELinux is enforcing, the failure is audited, the user is told, and nothing is set.", "quantifier": "all users, services, options, variables, dialogues of any length, policies and memory failures", "why_tests_cant": "every policy, dialogue and option list", "anchors": ["modules/pam_selinux/pam_selinux.c:config_context", "modules/pam_selinux/pam_selinux.c:context_from_env", "modules/pam_selinux/pam_selinux.c:compute_exec_context", "modules/pam_selinux/pam_selinux.c:create_context", "modules/pam_selinux/pam_selinux.c:query_response"]}
{"id": "C112", "title": "pam_selinux: contexts are set and restored", "statement": "With SELinux enforcing, success in opening a session means that the context is set for the next program, for new keys and, computed from its label, for the terminal, unless the option nottys is there or the terminal is missing. After any sequence of further calls with the handle in which no context is refused, programs and files have the contexts of the session, or exactly those from before, as the last call asks. The options open, close and restore select calls. Contexts set for programs are audited as they turned out. When SELinux is not enforcing, failures with contexts are no errors. Without a context nothing is set.", "quantifier": "all options, terminals, policies, failures and sequences of calls", "why_tests_cant": "sequences of calls of any length, every failure", "anchors": ["modules/pam_selinux/pam_selinux.c:set_context", "modules/pam_selinux/pam_selinux.c:restore_context", "modules/pam_selinux/pam_selinux.c:compute_tty_context", "modules/pam_selinux/pam_selinux.c:set_file_context", "modules/pam_selinux/pam_selinux.c:pam_sm_open_session", "modules/pam_selinux/pam_selinux.c:pam_sm_close_session"]}
{"id": "C113", "title": "pam_modutil: entries of users and groups for modules", "statement": "An entry of the password, shadow or group data base that libpam returned to a module stays as it is until the handle ends, whatever modules search for later with the handle; then it is released, once for every search that returned it. A search returns every entry that fits into 262144 bytes if there is memory, and needs at most one name more than the handle has data. An entry that is not found or cannot be kept is not returned and changes nothing. The login name is the same for the life of the handle. Without a handle nothing is kept; an application's handle keeps nothing.", "quantifier": "all data of the handle, sequences of searches, entries, answers of the data bases and memory failures", "why_tests_cant": "sequences of calls of any length, 2147483647 names", "anchors": ["libpam/pam_modutil_getpwnam.c:pam_modutil_getpwnam", "libpam/pam_modutil_getpwuid.c:pam_modutil_getpwuid", "libpam/pam_modutil_getgrnam.c:pam_modutil_getgrnam", "libpam/pam_modutil_getgrgid.c:pam_modutil_getgrgid", "libpam/pam_modutil_getspnam.c:pam_modutil_getspnam", "libpam/pam_modutil_getlogin.c:pam_modutil_getlogin"]}
{"id": "C114", "title": "pam_stress: passwords and results", "statement": "pam_stress takes a password from the token of before if options allow it, otherwise it asks with one hidden prompt; authentication stores it and then does as the options say. A token is changed only in the second call for new passwords, after two equal answers, and with success; then the token of before is the old one. Different or missing answers, a failed conversation or a missing old password change no token and have results of their own. Calls that have nothing to change ask nothing. A password reported as expired is changed by the next call for expired ones.", "quantifier": "all options, flags, tokens, conversations and memory failures", "why_tests_cant": "every conversation and option list", "anchors": ["modules/pam_stress/pam_stress.c:_pam_parse", "modules/pam_stress/pam_stress.c:converse", "modules/pam_stress/pam_stress.c:stress_get_password", "modules/pam_stress/pam_stress.c:pam_sm_authenticate", "modules/pam_stress/pam_stress.c:pam_sm_acct_mgmt", "modules/pam_stress/pam_stress.c:pam_sm_chauthtok"]}
{"id": "C115", "title": "pam_filter: terminal, processes and filter", "statement": "pam_filter starts a filter only for calls to which its run1 or run2 applies, and only one named by a full path. Its environment has exactly four variables. The user's terminal has its mode back whenever the call returns in one process, and when the first of two ends, whatever fails. The first process clears the tokens before it runs the filter, lasts until application and filter have ended in either order and however often they stop, and ends with the status of the application. Success with a filter means that the three standard descriptors of the application lead to it; success without one means that none applies. PAM_TTY is never changed once it is set, nor with non_term.", "quantifier": "all arguments, calls, failures of system calls and reports of wait", "why_tests_cant": "every interleaving of ends and stops of two processes", "anchors": ["modules/pam_filter/pam_filter.c:process_args", "modules/pam_filter/pam_filter.c:set_filter", "modules/pam_filter/pam_filter.c:set_the_terminal", "modules/pam_filter/pam_filter.c:need_a_filter", "modules/pam_filter/pam_filter.c:pam_sm_chauthtok"]}
{"id": "C116", "title": "The audit trail", "statement": "With libaudit each call of the application is passed on as exactly one record, except a preliminary check of passwords that succeeds; a transaction without any is recorded at pam_end as one of an unknown user. The record has the type of the call, the modules that granted, the host, the terminal and the outcome; the name of an unknown user is never in it. A record that was taken agrees with the result of the call; if it was refused for another reason than privilege, or memory is short, the call does not succeed. The list of modules fits exactly into its memory and can be read back if names have no comma. The same failure of the audit is not logged twice in a row.", "quantifier": "all calls, results of modules, handlers, items, flags, failures and sequences of calls", "why_tests_cant": "every sequence of calls and failures on a handle", "anchors": ["libpam/pam_audit.c:_pam_audit_writelog", "libpam/pam_audit.c:_pam_audit_open", "libpam/pam_audit.c:_pam_list_grantors", "libpam/pam_audit.c:_pam_auditlog", "libpam/pam_audit.c:_pam_audit_end", "libpam/pam_audit.c:pam_modutil_audit_write", "libpam/pam_dispatch.c:_pam_dispatch"]}
{"id": "C117", "title": "The program faillock", "statement": "faillock takes exactly lists of known settings, the last of a kind counts, and --dir wins over the configuration. With --reset for a user it empties only that user's tally file, its exit status tells whether the file is empty, and one audit record has the same outcome. Without --reset no records change. The new format shows the records in order with kind, source and validity, and never reads past a source; the legacy format shows the number of records and the last one. A reset of all users empties every listed file of an existing user and no other.", "quantifier": "all arguments, users, files and failures", "why_tests_cant": "every argument list and file", "anchors": ["modules/pam_faillock/main.c:args_parse", "modules/pam_faillock/main.c:print_in_new_format", "modules/pam_faillock/main.c:print_in_legacy_format", "modules/pam_faillock/main.c:do_user", "modules/pam_faillock/main.c:do_allusers", "modules/pam_faillock/main.c:main"]}
