# Formal model of Linux-PAM: design

All Coq sources are in `rocq/theories` (logical name `Verif`), Coq 8.16.1, standard library only.
For each component `X` there are up to four files:

* `X_Model.v`  – total computable Gallina functions transcribing the C code; every definition cites file and lines of `/repo`; no proofs.
* `X_Spec.v`   – the small independent specification used in statements (only when the statement needs more than the model's input/output types).
* `X_Proofs.v` – lemmas.
* `X_Props.v`  – the theorems named in `MANIFEST.json`, each with a concrete `Example` meeting its hypotheses and a `Print Assumptions`.

## Conventions of the model

* C strings are `list ascii` (`cstr`) without the terminating NUL; files are lists of bytes.
* Integers are `Z` (or `nat` for indices); where overflow matters it is explicit.
* Undefined behaviour is a distinct outcome (`UB`), never a default value. Reads of
  malloc'ed but uninitialised memory and out-of-bounds accesses give `UB`.
* Loops with no structural measure carry fuel; running out of fuel is a distinct outcome,
  and theorems show it does not happen.
* External behaviour (modules, conversation function, kernel, crypt(3), allocation failure,
  random numbers, clock) is a universally quantified argument (Section variable or input list).
* A theorem `…_refuted` proves, by a concrete witness, that a statement one would expect (usually
  the property as first written down) is false of the code. A theorem `…_partial` says in its
  comment what is missing.

## Trusted base

* Coq's kernel (coqc 8.16.1; `coqchk` is run at the end).
* The hand-made correspondence between the Gallina functions and the C text: cited per definition.
* `Print Assumptions` of each theorem: listed in the table at the end of this file. No theorem
  of the manifest rests on any axiom ("Closed under the global context"). The checker of the
  library objects (`coqchk -o`) also names the seven parameters of the module type inside the
  standard library's `Coq.ssr.ssrunder` (`Under_rel.Under_rel`, `Under_rel_from_rel`, `Under_relE`,
  `Over_rel`, `over_rel`, `over_rel_done`, `under_rel_done`), because that library file is loaded by
  `lia`/`Psatz`; no theorem uses them.
* C semantics taken for granted: ASCII "C" locale for ctype functions; single-threaded use of a handle
  (libpam documents handles as not shareable between threads); C `int` is 32 bits, `time_t`/`long` 64 bits.

## Plan per property

| id | how modelled | how proved |
|---|---|---|
| C01 | `_pam_dispatch_aux` as a function on flat handler lists, modules as an oracle on an abstract world | invariant of the loop: verdict positive with SUCCESS implies credited set non-empty, each credit comes from a module that returned PAM_SUCCESS |
| C02 | same | refinement to a recursive evaluator on trees of items; flattening lemma |
| C03 | same, keyword tables from the loader | induction on flat stacks against a declarative predicate |
| C04 | `former` state saved/restored | simulation: resumed loop = loop continued at the saved point; induction on number of resumes |
| C05 | `_pam_dispatch` | case analysis over all states |
| C06 | cached_retval cells shared between chains | simulation of two runs; false for PAM_IGNORE returns: refuted + proved under the missing hypothesis |
| C07 | UB outcome in the array accesses | invariant on levels vs. initialised prefix; loader produces well-formed levels |
| C08, C09 | same model | case lemmas on the loop, corollaries of C02 |
| C10, C11 | `_pam_parse_control` on strings | independent table semantics of a parsed list, print/parse round trip, all-bad otherwise |
| C12 | `_pam_tokenize`, `_pam_mkargv` at memory level | round trip of a quoting function |
| C13, C14, C16, C47 | `_pam_parse_conf_file`/`_pam_load_conf_file` over an abstract file system; handle histories for C47 | fuel-free by recursion on remaining depth; invariants on produced lists |
| C15, C40 | `_pam_line_assemble` on a list of physical lines/bytes | refinement to a line-level grammar |
| C17 | service name normalisation + path construction | proof for pam_start, refutation for pam_set_item |
| C18, C19 | pam_env.c with allocation-failure inputs | refinement to an association list; invariants |
| C20 | pam_data.c, cleanup functions as programs | refinement + multiset of cleanup events |
| C21, C22 | pam_delay.c | history invariant (refuted for stale delay); rational arithmetic with arbitrary monotone rounding |
| C23–C28, C41, C42 | whole-handle model: API operations, modules as interaction trees | invariants over all programs, noninterference for C23 |
| C29–C33, C43–C45 | modutil / pam_inline functions on byte lists and on an abstract process | refinement to list predicates |
| C34 | faillock tally operations with a clock | history invariant |
| C35, C36, C46, C48, C49 | passverify.c, support.c, bigcrypt.c, unix_chkpwd.c, hash functions are parameters there (md5: C56, C57) | case analysis against declarative verdicts |
| C37, C50 | pam_time.c, pam_group.c at byte level, from the file to the verdict | refinement to expression evaluation |
| C38, C51 | macros, libpamc agents | round trip; refutations |
| C39 | misc_conv.c | list induction |
| C52, C53 | pam_access.c from the bytes of the tables to the verdict; resolver, netgroups, groups are parameters | declarative decision relation; bits of addresses |
| C54–C57 | sha1.c, hmacsha1.c (generate), md5.c with byte orders and uninitialised buffer, md5_crypt.c | refinement of the block buffers to the standards' definitions on whole messages; round functions by bitwise lemmas |
| C58–C60 | pam_timestamp.c with pam_timestamp_check, the file half of hmacsha1.c; system-call failures are parameters of each call | invariant over all histories of calls; refinement of the name to a relation |
| C61 | pam_listfile.c with the fgets loop on the bytes of the list; files, databases, items are parameters | option loop by induction on the arguments; entries as a relation on the whole text |
| C62 | pam_succeed_if.c; databases, fnmatch and allocation are parameters | strtoll to a grammar of numerals; strstr loop to membership; induction over the words |
| C63 | pam_securetty.c with its reads of /proc/cmdline and the active consoles; files and databases are parameters | the scan of the command line by induction over its words; entries as a relation on the text |
| C64, C65 | pam_wheel.c, pam_nologin.c, pam_shells.c; databases and files are parameters | options to "the last value" by induction over the arguments; case analysis |
| C66 | pam_usertype.c, pam_faildelay.c; /etc/login.defs as key to text | strtoul and strtoll to a grammar of numerals |
| C67 | pam_umask.c; nice and setrlimit as a list of effects, the mask as state | loop over GECOS to the list of its fields; bits to arithmetic |
| C68, C69 | opasswd.c without SELinux; the disk as a map from names to text, mode and owners; each system call may fail by a parameter | the file as rows, a row as name, uid, count and hashes; lookup and rewriting by induction over the lines |
| C70 | pam_pwhistory.c, pwhistory_config.c; answers of pam_get_authtok by number of call | the loop by induction over the tries; options to the last of each kind |
| C71 | _expand_arg and its string buffer with size_t arithmetic, the string overwritten in place as the place where it ends now; allocations are parameters | loop to an inductive meaning of texts; invariant: the string fits its buffer |
| C72, C73 | pam_env.c without econf and vendor directories; lines from the model of pam_line.c, variables from that of pam_env.c in libpam | lines to a grammar; files by induction over the lines with the map semantics of pam_putenv |
| C74 | handle_env with a list of events (open, drop, regain); files, users and failures are parameters | case analysis; options to the last of each kind |
| C75 | create_password_hash with crypt_make_salt; crypt and crypt_gensalt of the library are functions with the hypotheses of the theorem | case analysis over methods; the hash as its own salt |
| C76, C77 | save_old_password and check_old_password line by line over the file as bytes; outcome of every file operation and allocation is a parameter | rows as lines; induction over rows; history of a user as an abstract list, sequences of saves by induction |
| C78 | unix_update_passwd and unix_update_shadow over the library's readers and writers of entries | entry by entry relation before/after; the common replacing of a file |
| C79, C80 | unix_update.c, _do_setpass, _unix_verify_shadow, _pam_unix_approve_pass and pam_sm_chauthtok with a list of steps (lock, write, unlock) | case analysis with the facts on helpers (C48) and hashes (C57) |
| C81, C82 | pam_userdb: options, user_lookup over the database as a list of keys and data, both entry points | options by induction on arguments; an entry being right stated without the code's lookups; first/next key loop by induction |
| C83–C87 | pam_limits: arguments, configuration lines, process_limit, logins in utmp, /proc/1/limits, opening a session (not logind, audit, vendor directory) | fields and domains as relations, shown equal to the code's; precedence by induction from the end of the entries; kernel text printed and read back; session as a refinement of the entries read |
| C88 | pam_faillock: configuration file and arguments (not the vendor file, failing reads, failing strdup of an argument) | the line's meaning as a relation, shown equal to the parser's; each setting is the last valid one by induction from the end |
| C89 | pam_motd (allocations succeed; contents of a file do not change while it is read) | the strict order of names makes the sorted list unique, so that code and description agree; the number of tokens against the number of places by induction over the words |
| C90, C91 | pam_echo; pam_issue (number of users and localtime are inputs) | buffers with explicit sizes, stores outside them undefined; the expansion as a relation, shown equal to what the loops leave in the buffer |
| C92 | pam_tty_audit (netlink transfer and fnmatch are inputs, allocations succeed) | ranges as a relation over the text, shown equal to the parser's by uniqueness of the first colon; last option by induction from the end |
| C93 | pam_namespace's secure_opendir, protect_mount, secure_umount (file system calls and path resolution modelled in outline) | file system as a function of time; invariant of the walk over the parts of the path; ledger of descriptors and mounts |
| C94 | pam_namespace's configuration (allocations succeed) | words as an inductive relation over the text, shown equal to the state machine's; variables and mount options as relations with buffer bounds; entry relation for lines; induction over lines and files |
| C95 | pam_namespace's poly_name, set_polydir_paths, check_safe_path, root_shared, get_user_data (allocations succeed; SELinux and the hash as inputs) | differentiation string and shortened name as relations; loop over the parents of a path; last matching line of mountinfo |
| C96 | pam_namespace's ns_setup and what it calls, setup_namespace, orig_namespace (labels, groups, init script outside) | on the file system of C93: trace of events, each traced back to the call that found its directory; ledger of descriptors; session as a relation over the list of entries |
| C97 | pam_exec's call_exec, move_fd_to_non_stdio and the service functions (debug messages and the text written to the log file outside) | descriptor table of C43: each pipe end followed through dup, dup2 and close; inversion of the call into how far it got; options as a relation |
| C98 | pam_mkhomedir and mkhomedir_helper as a whole (block loop, signals, logging and concurrent changes outside) | trace of calls with an invariant over each call and the calls before it; copy as a function of the two trees by induction on the recursion; finite check of the octal numerals |
| C99 | pam_ftp as a whole (texts of prompts outside) | token relation of C53 turned into membership in the list; case analysis |
| C100 | pam_rootok, pam_rhosts, pam_localuser, pam_canonicalize_user, pam_permit, pam_debug (logging outside) | case analysis; options as the latest one; file scan of C29 |
| C101 | pam_keyinit in one thread (other threads through session_counter; logging outside) | invariant over all sequences of calls; history of keyrings as a separate inductive relation |
| C102 | pam_loginuid as a whole (logging outside) | case analysis; induction over the answers of the daemon |
| C103 | pam_xauth: run_coprocess (child outside), check_acl, open_session | trace of effects; lines of the access lists by a decomposition of the text |
| C104 | pam_xauth: open_session, close_session (SELinux, pam_putenv failures outside) | fold over the trace of effects; composition of open and close |
| C105 | pam_mail: all functions (file system and conversation outside) | fold over the options; inductive description of everything a call does |
| C106 | pam_sepermit: sepermit_match, get_loginuid, pam_sepermit | induction over the lines with a description of every line |
| C107 | pam_sepermit: check_running, sepermit_lock, sepermit_unlock, with pam_set_data and pam_end | induction over the passes of the killing loop; state of POSIX locks |
| C108 | pam_setquota: pam_sm_open_session, parse_params, parse_dqblk, str_to_uid, str_to_dqb_num | last-value lemma for every option; invariant over the mounted file systems seen so far |
| C109 | pam_lastlog: pam_auth, _pam_auth_parse, get_lastlog_uid_max, last_login_open, last_login_read | last-value lemma; division of times; composition of a session with a later authentication |
| C110 | pam_lastlog: pam_sm_open_session, pam_sm_close_session, last_login_date, last_login_write, last_login_failed, _pam_session_parse | stages of the session as an inductive relation; induction over btmp and over the attempts to lock |
| C111 | pam_selinux: config_context, context_from_env, compute_exec_context, create_context | the dialogue as an inductive relation, equivalence by induction; wanted ranges as inductive relations |
| C112 | pam_selinux: set_context, restore_context, compute_tty_context, set_file_context, pam_sm_open_session, pam_sm_close_session | state of process and files after effects; invariant by induction over sequences of calls |
| C113 | pam_modutil_getpwnam and the four others like it, pam_modutil_getlogin, pam_modutil_cleanup | the first free name by the pigeonhole principle; invariant by induction over sequences of calls |
| C114 | pam_stress: all functions but _pam_report | passwords as an inductive relation, equivalence; case analysis over the change |
| C115 | pam_filter: all functions but master and the system log | induction over the reports of wait and the arguments, invariant of the mode of the terminal |
| C116 | libpam/pam_audit.c: all functions (with libaudit), and the audit step of _pam_dispatch | induction over handlers and over the calls of a transaction, invariant of the log |
| C117 | modules/pam_faillock/main.c: all functions but usage and get_local_time | induction over arguments and names; case analysis over failures |


## Modelled code

Files and line ranges cited by the definitions of each model (collected from their comments).

| model | file | lines |
|---|---|---|
| Access_Model.v | modules/pam_access/pam_access.c | 59, 94-109, 113-165, 169-180, 188-255, 273-327, 335-447, 451-558, 563-597, 636-655, 659-717, 721-748, 752-770, 775-866, 870-929, 936-1119, 1124-1261 |
| Audit_Model.v | libpam/include/security/_pam_types.h | 108-117 |
| Audit_Model.v | libpam/pam_audit.c | 27-65, 71-84, 89-235 |
| Audit_Model.v | libpam/pam_dispatch.c | 441-445 |
| Audit_Model.v | libpam/pam_end.c | 25-27 |
| Audit_Model.v | libpam/pam_private.h | 53-66, 187-197 |
| Audit_Model.v | libpam/pam_start.c | 122 |
| Conf_Model.v | libpam/pam_handlers.c | 24, 38-42, 54-915 |
| Conf_Model.v | libpam/pam_item.c | 41-58 |
| Conf_Model.v | libpam/pam_private.h | 83-100, 149-180 |
| Conf_Model.v | libpam/pam_start.c | 69-89 |
| Ctl_Model.v | libpam/pam_handlers.c | 148-198 |
| Ctl_Model.v | libpam/pam_misc.c | 230-239, 250-353 |
| Ctl_Model.v | libpam/pam_tokens.h | 23-30, 37-73 |
| Data_Model.v | libpam/include/security/pam_modules.h | 76 |
| Data_Model.v | libpam/pam_data.c | 39-164 |
| Data_Model.v | libpam/pam_end.c | 12-32 |
| Data_Model.v | libpam/pam_private.h | 261-266 |
| Delay_Model.v | libpam/pam_delay.c | 30-34, 44-48, 62-95, 105-148, 156-179 |
| Delay_Model.v | libpam/pam_private.h | 121-126 |
| Dispatch_Model.v | libpam/pam_audit.c | 131-201 |
| Dispatch_Model.v | libpam/pam_dispatch.c | 17-27, 34-318, 334-447 |
| Dispatch_Model.v | libpam/pam_private.h | 51-71, 83-90, 134-142, 153-206 |
| Echo_Model.v | libpam/include/security/_pam_types.h | 247 |
| Echo_Model.v | modules/pam_echo/pam_echo.c | 60-265 |
| Env_Model.v | libpam/pam_env.c | 55-92, 128-144, 159-287, 293-400 |
| Env_Model.v | libpam/pam_private.h | 106-115 |
| Exec_Model.v | libpam/include/security/_pam_types.h | 248 |
| Exec_Model.v | modules/pam_exec/pam_exec.c | 58-68, 73-540 |
| Faillock_Model.v | modules/pam_faillock/faillock.c | 54-174 |
| Faillock_Model.v | modules/pam_faillock/faillock.h | 55-62 |
| Faillock_Model.v | modules/pam_faillock/faillock_config.h | 61-82 |
| Faillock_Model.v | modules/pam_faillock/pam_faillock.c | 190-403, 487-512, 561-565 |
| Filter_Model.v | modules/pam_filter/pam_filter.c | 35-39, 65-197, 211-615, 625-681 |
| Flconf_Model.v | modules/pam_faillock/faillock_config.c | 78-264 |
| Flconf_Model.v | modules/pam_faillock/faillock_config.h | 59-82 |
| Flconf_Model.v | modules/pam_faillock/pam_faillock.c | 60-62, 66-141 |
| Fltool_Model.v | modules/pam_faillock/faillock.c | 54-111 |
| Fltool_Model.v | modules/pam_faillock/faillock.h | 50-62 |
| Fltool_Model.v | modules/pam_faillock/faillock_config.c | 265-268 |
| Fltool_Model.v | modules/pam_faillock/main.c | 64-67, 71-122, 149-285, 300-308, 316-331 |
| Ftp_Model.v | libpam/pam_item.c | 16-25 |
| Ftp_Model.v | libpam/pam_modutil_check_user.c | 31-33 |
| Ftp_Model.v | modules/pam_canonicalize_user/pam_canonicalize_user.c | 46-69 |
| Ftp_Model.v | modules/pam_debug/pam_debug.c | 31-100 |
| Ftp_Model.v | modules/pam_ftp/pam_ftp.c | 34-56, 63-100, 104-206 |
| Ftp_Model.v | modules/pam_localuser/pam_localuser.c | 52-94 |
| Ftp_Model.v | modules/pam_permit/pam_permit.c | 17-41 |
| Ftp_Model.v | modules/pam_rhosts/pam_rhosts.c | 48-134 |
| Ftp_Model.v | modules/pam_rootok/pam_rootok.c | 86-129 |
| Gate_Model.v | modules/pam_nologin/pam_nologin.c | 37-57, 63-145 |
| Gate_Model.v | modules/pam_shells/pam_shells.c | 34-153 |
| Gate_Model.v | modules/pam_wheel/pam_wheel.c | 49-232 |
| Handle_Model.v | libpam/include/security/pam_modules.h | 60-64 |
| Handle_Model.v | libpam/pam_account.c | 7-23 |
| Handle_Model.v | libpam/pam_auth.c | 14-73 |
| Handle_Model.v | libpam/pam_delay.c | 105-148 |
| Handle_Model.v | libpam/pam_dispatch.c | 107-113, 334-448 |
| Handle_Model.v | libpam/pam_end.c | 20-23 |
| Handle_Model.v | libpam/pam_handlers.c | 405-575 |
| Handle_Model.v | libpam/pam_misc.c | 212-223 |
| Handle_Model.v | libpam/pam_password.c | 12-61 |
| Handle_Model.v | libpam/pam_session.c | 11-45 |
| Handle_Model.v | libpam/pam_start.c | 18-175 |
| Inline_Model.v | libpam/include/pam_inline.h | 104-125, 185-246, 253-265 |
| Inline_Model.v | libpam/include/security/_pam_types.h | 248 |
| Inline_Model.v | libpam/pam_modutil_ioloop.c | 13-63 |
| Issue_Model.v | modules/pam_issue/pam_issue.c | 46-250, 254-326 |
| Item_Model.v | libpam/include/security/_pam_types.h | 132-146, 229-232, 286-290, 296-301 |
| Item_Model.v | libpam/pam_get_authtok.c | 40-50, 54-212, 230-289 |
| Item_Model.v | libpam/pam_item.c | 16-25, 29-273, 279-402 |
| Item_Model.v | libpam/pam_private.h | 134-183 |
| Item_Model.v | libpam/pam_vprompt.c | 46-99 |
| Keyinit_Model.v | modules/pam_keyinit/pam_keyinit.c | 35-39, 68-93, 98-149, 154-272, 277-326 |
| Lastlog_Model.v | libpam/include/pam_inline.h | 53-58 |
| Lastlog_Model.v | modules/pam_lastlog/pam_lastlog.c | 73-82, 98-117, 123-730, 755-820 |
| Limits_Model.v | modules/pam_limits/pam_limits.c | 64-76, 89-114, 136, 143-171, 251-586, 593-909, 921-1242, 1335-1442 |
| Line_Model.v | libpam_internal/pam_line.c | 8-59, 100-103, 116, 121, 138-160, 171-184, 195-253 |
| Listfile_Model.v | libpam/pam_item.c | 279-400 |
| Listfile_Model.v | modules/pam_listfile/pam_listfile.c | 36-43, 47-352 |
| Loginuid_Model.v | modules/pam_loginuid/pam_loginuid.c | 53-101, 110-181, 187-241 |
| Lookup_Model.v | libpam/pam_modutil_cleanup.c | 14-57 |
| Lookup_Model.v | libpam/pam_modutil_getgrgid.c | 54-55 |
| Lookup_Model.v | libpam/pam_modutil_getgrnam.c | 54-55 |
| Lookup_Model.v | libpam/pam_modutil_getlogin.c | 16-46 |
| Lookup_Model.v | libpam/pam_modutil_getpwnam.c | 19-100 |
| Lookup_Model.v | libpam/pam_modutil_getpwuid.c | 54-55 |
| Lookup_Model.v | libpam/pam_modutil_getspnam.c | 54-55 |
| Lookup_Model.v | libpam/pam_modutil_private.h | 16-18 |
| Mail_Model.v | modules/pam_mail/pam_mail.c | 42-327, 333-362, 367-466 |
| Md5_Model.v | modules/pam_unix/md5.c | 25-48, 54-63, 69-111, 117-155, 162-169, 176-257 |
| Md5_Model.v | modules/pam_unix/md5.h | 8-18 |
| Md5_Model.v | modules/pam_unix/md5_crypt.c | 21-30, 38-152 |
| Misc_Model.v | libpam_misc/misc_conv.c | 24, 33-39, 77-263, 280-404 |
| Mkhome_Model.v | modules/pam_mkhomedir/mkhomedir_helper.c | 89-416, 439-444 |
| Mkhome_Model.v | modules/pam_mkhomedir/pam_mkhomedir.c | 75-220, 224-265 |
| Modutil_Model.v | libpam/include/security/pam_modutil.h | 114-126, 137-141 |
| Modutil_Model.v | libpam/pam_modutil_check_user.c | 8-77 |
| Modutil_Model.v | libpam/pam_modutil_ingroup.c | 16-78 |
| Modutil_Model.v | libpam/pam_modutil_priv.c | 23-179 |
| Modutil_Model.v | libpam/pam_modutil_sanitize.c | 22-44, 50-162 |
| Modutil_Model.v | libpam/pam_modutil_searchkey.c | 52-107 |
| Motd_Model.v | modules/pam_motd/pam_motd.c | 44-66, 74-116, 122-461 |
| Nsconf_Model.v | modules/pam_namespace/argv_parse.c | 39-41, 46-137 |
| Nsconf_Model.v | modules/pam_namespace/pam_namespace.c | 485-963, 1030-1067, 1106-1123 |
| Nsconf_Model.v | modules/pam_namespace/pam_namespace.h | 136-143, 165-183 |
| Nsname_Model.v | modules/pam_namespace/pam_namespace.c | 1125-1153, 1282-1544, 2422-2517 |
| Nsname_Model.v | modules/pam_namespace/pam_namespace.h | 121, 169-171, 194-195 |
| Nsopen_Model.v | modules/pam_namespace/pam_namespace.c | 68-307 |
| Nssetup_Model.v | modules/pam_namespace/pam_namespace.c | 1445-1471, 1638-2063, 2180-2395 |
| Nssetup_Model.v | modules/pam_namespace/pam_namespace.h | 156-160 |
| Opt_Model.v | libpam/include/pam_inline.h | 70-82 |
| Pamc_Model.v | libpamc/include/security/pam_client.h | 75-82, 95-103, 109-160, 165-173, 187-189 |
| Pamc_Model.v | libpamc/libpamc.h | 26-36, 43-50, 54-58 |
| Pamc_Model.v | libpamc/pamc_client.c | 33-103 |
| Pamc_Model.v | libpamc/pamc_converse.c | 16-30, 36-212 |
| Pamc_Model.v | libpamc/pamc_load.c | 12-148, 154-167, 173-186, 192-233, 239-308, 314-339, 345-379, 405-414, 420-468 |
| Pamenv_Model.v | modules/pam_env/pam_env.c | 39-44, 61-72, 91-147, 315-363, 367-509, 534-584, 603-807, 830-851, 865-1034, 1044-1106 |
| Pwhist_Model.v | modules/pam_pwhistory/opasswd.c | 73-80, 96-541 |
| Pwhist_Model.v | modules/pam_pwhistory/pam_pwhistory.c | 69-112, 295-402 |
| Pwhist_Model.v | modules/pam_pwhistory/pwhistory_config.c | 55-132 |
| Pwhist_Model.v | modules/pam_pwhistory/pwhistory_config.h | 41-47 |
| Securetty_Model.v | modules/pam_securetty/pam_securetty.c | 33, 38-261 |
| Selinux_Model.v | modules/pam_selinux/pam_selinux.c | 142-385, 422-817 |
| Sepermit_Model.v | libpam/pam_data.c | 60-112, 145-164 |
| Sepermit_Model.v | modules/pam_sepermit/pam_sepermit.c | 82-170, 176-452 |
| Setquota_Model.v | modules/pam_setquota/pam_setquota.c | 32-41, 57-132, 140-166, 170-391 |
| Sha1_Model.v | modules/pam_timestamp/hmacsha1.c | 194-266 |
| Sha1_Model.v | modules/pam_timestamp/sha1.c | 60-254 |
| Sha1_Model.v | modules/pam_timestamp/sha1.h | 49-58 |
| Stress_Model.v | libpam/include/security/_pam_types.h | 97, 103, 124, 229-232 |
| Stress_Model.v | libpam/include/security/pam_modules.h | 60, 64 |
| Stress_Model.v | libpam/pam_item.c | 83-115 |
| Stress_Model.v | modules/pam_stress/pam_stress.c | 30-42, 62-130, 134-195, 205-284, 288-533 |
| Succeedif_Model.v | modules/pam_succeed_if/pam_succeed_if.c | 64-90, 94-122, 134, 185-204, 223-230, 291-438, 462-591 |
| Time_Model.v | modules/pam_group/pam_group.c | 473-753, 764-831 |
| Time_Model.v | modules/pam_time/pam_time.c | 41, 104-257, 261-302, 306-614, 618-694 |
| Timestamp_Model.v | libpam/include/pam_inline.h | 53-58, 166-178 |
| Timestamp_Model.v | modules/pam_timestamp/hmacsha1.c | 58-192, 268-289 |
| Timestamp_Model.v | modules/pam_timestamp/pam_timestamp.c | 83-94, 100-383, 393-608, 616-745, 758-917 |
| Tok_Model.v | libpam/pam_misc.c | 49-108, 154-205 |
| Ttyaudit_Model.v | modules/pam_tty_audit/pam_tty_audit.c | 205-450 |
| Umask_Model.v | libpam/include/pam_inline.h | 84-97 |
| Umask_Model.v | modules/pam_umask/pam_umask.c | 63-128, 138-186, 190-228 |
| Unix_Model.v | modules/pam_unix/audit.c | 15-42 |
| Unix_Model.v | modules/pam_unix/bigcrypt.c | 52-173 |
| Unix_Model.v | modules/pam_unix/pam_unix_acct.c | 65-181, 188-294 |
| Unix_Model.v | modules/pam_unix/pam_unix_auth.c | 91-175, 187-213 |
| Unix_Model.v | modules/pam_unix/passverify.c | 56-335, 1052-1076 |
| Unix_Model.v | modules/pam_unix/passverify.h | 10 |
| Unix_Model.v | modules/pam_unix/support.c | 270-281, 522-641, 650-901 |
| Unix_Model.v | modules/pam_unix/unix_chkpwd.c | 39-194 |
| Unixctl_Model.v | libpam/include/security/_pam_types.h | 97-124 |
| Unixctl_Model.v | libpam/include/security/pam_modules.h | 60-64 |
| Unixctl_Model.v | modules/pam_unix/support.c | 49-59, 65-259 |
| Unixctl_Model.v | modules/pam_unix/support.h | 23-28, 34-47, 51, 65-152 |
| Unixset_Model.v | modules/pam_unix/pam_unix_passwd.c | 326-859 |
| Unixset_Model.v | modules/pam_unix/passverify.c | 352, 356, 368-537, 610-1048 |
| Unixset_Model.v | modules/pam_unix/passverify.h | 12 |
| Unixset_Model.v | modules/pam_unix/support.c | 357-384, 410-475 |
| Unixset_Model.v | modules/pam_unix/unix_update.c | 41-186 |
| Userdb_Model.v | libpam/include/pam_inline.h | 84-97 |
| Userdb_Model.v | modules/pam_userdb/pam_userdb.c | 55-139, 144-182, 200-418, 422-510, 519-563 |
| Userdb_Model.v | modules/pam_userdb/pam_userdb.h | 10-16 |
| Usertype_Model.v | modules/pam_faildelay/pam_faildelay.c | 82-144 |
| Usertype_Model.v | modules/pam_usertype/pam_usertype.c | 57-62, 70-233, 258-276 |
| Xauth_Model.v | modules/pam_xauth/pam_xauth.c | 77-84, 93-226, 237-799 |

## What is not modelled

* **libpam**: pam_audit.c beyond the result of writing a record (a boolean or code chosen by the environment);
  dlopen/dlsym (a function from module paths to functions); syslog output; pam_strerror; pam_get_authtok's
  gettext translation; libpam built with PAM_READ_BOTH_CONFS, PAM_LOCKING or VENDORDIR; pam_modutil_getpwnam and
  its relatives (results of the name service are parameters), pam_modutil_getlogin, pam_modutil_cleanup.
* **Signals and threads**: a handle is used by one thread; signals only appear where the code handles them
  (misc_conv's alarm, EINTR of read and write).
* **Kernel and C library**: open/read/write/flock/getpwnam/getspnam/crypt/fork/exec/close_range are parameters or
  schedules, except the functions modelled in `Base.v` and `Num_Model.v` (ctype, strcmp-like, strtol, atoi).
* **pam_unix**: SELinux paths, NIS and the yp code, session logging, crypt(3) itself.
* **pam_time, pam_group**: directories and vendor files; netgroups are a parameter.
* **Modules** not named in the table of modelled code below are not modelled.
* Memory is modelled where it matters for the property (tokenizer, environment list, prompts, misc_conv);
  elsewhere strings are values, and allocation failure is an input only where the definition's comment says so.

## Findings

Behaviour that contradicts the property as first stated or is surprising; theorems in parentheses are proofs by
witness. Everything else was seen while transcribing and is visible in the model.

**Dispatch**
* C06: a module whose setcred function returns PAM_IGNORE lets the frozen chain go on past the place where the
  authentication stopped (`frozen_chain_same_modules_refuted`).
* A line replaced by "must fail" keeps its parsed control, so `[perm_denied=reset]` can neutralise it (C14,
  `malformed_line_stack_fails_refuted`).
* C27: when the audit record cannot be written, PAM_INCOMPLETE becomes PAM_SYSTEM_ERR while the saved state stays;
  the next pam_chauthtok then resumes the preliminary phase in the middle (`phases_follow_protocol_refuted_by_audit`);
  a failed reload does the same (`…_by_reload`).
* C41: PAM_SERVICE changed between PAM_INCOMPLETE and the resume: leading modules of the new stack are skipped
  (`resumed_call_runs_every_module_refuted`).

**Configuration**
* C12: some argument lists cannot be written at all (`every_list_can_be_passed_refuted`).
* C14: `foo include x`, with an illegal type, is treated as a correct include line (`malformed_include_fails_refuted`).
* C16: for the service "other" the file is read twice (`lines_once_for_service_other_refuted`).
* C17: pam_set_item(PAM_SERVICE) does not strip directories (`set_service_stays_in_directory_refuted`).
* C40: a read error looks like end of file: the stack is truncated silently (`read_errors_reported_refuted`).
* A module whose name cannot be built leaves a handler with a NULL mod_name; pam_audit.c:101 then calls strlen on it.

**Items, data, environment, delays**
* C18: pam_getenv("A=B") with A=B=C stored returns "C" (`getenv_of_no_variable_refuted`); a failed strdup on replacing
  deletes the variable.
* C20: the cleanup of a replaced object can still fetch it; storing the same name from a cleanup runs the cleanup twice,
  or without end (`cleaned_object_not_retrievable_refuted`, `cleanup_exactly_once_refuted`, `storing_terminates_refuted`).
* C21: a first request for 0 µs revives the delay of an earlier call (`largest_request_decides_refuted`); the
  application's delay function is told of a stale delay even on success (`delay_function_told_of_stale_delay_refuted`).
* C24: pam_chauthtok refusing its flags returns before wiping the tokens (`no_password_survives_refuted_by_flags`).
* C25: a failed token set leaves "" (`failed_set_leaves_item_refuted`), a token set from a pointer into the current one
  becomes "" (`set_password_from_inside_refuted`); PAM_XAUTHDATA with NULL is undefined, a failed set zeroes it.
* C42: a stale "verified" flag lets pam_get_authtok_verify skip retyping (`verify_may_not_ask_refuted`).

**Helpers for modules**
* C31: if restoring the groups fails, a failed drop loses them, and regaining again after a failed regain reports success
  with the groups lost (`failed_drop_changes_nothing_refuted`, `regain_again_restores_refuted`).
* C43: without close_range, descriptors above the limit or 65535 stay open in helpers (`all_closed_refuted`).
* C45: a user with more than 65536 groups is not found in their groups (`member_reported_refuted`).
* pam_modutil_getpwnam called with a NULL handle tries INT_MAX names before giving up; entries above 0x40000 bytes are not found.

**pam_faillock (C34)**
* Clock set back: newer records are invalidated and three failures do not lock (`deny_failures_lock_refuted`).
* audit_open failing at the deny-th failure: the record is not written and the account never locks
  (`audit_failure_prevents_lock_refuted`).
* deny above 1024 never locks (`large_deny_never_locks_refuted`); `deny=65536` is read as 0, `deny=-1` as 65535.
* Two first failures at the same time count once (`concurrent_failures_counted_refuted`).
* The account phase resets the tally even of a locked account; EACCES and ENOENT on the tally count as success.

**pam_unix**
* C46: the mask of the hash methods also clears the bits of `quiet` and `minlen=` ("quiet sha512" is not quiet,
  `quiet_option_refuted`); options match by prefix ("debugfoo" is debug).
* C49: `blank_check_agrees_refuted`: through the helper, a hash of the empty password counts as a blank password, directly
  only an empty field does; `invented_users_let_in_refuted`: a user called "pam_unix_non_existent:" with a blank password
  lets unknown users in.
* no_pass_expiry with 0 days left warns "expires in 0 days"; bigcrypt reads out of bounds if crypt returns fewer than two
  characters; a failed write to the helper is overwritten by waitpid's result; unix_chkpwd treats a failed read of the
  password as the empty password; its success becomes PAM_AUTH_ERR when the audit record of an ordinary user cannot be written.
* A hash longer than 13 characters with a non-DES character after the 13th is cut to a traditional one.
* Seen but not modelled: `_do_setpass` returns with the lock held on one SELinux path; save_old_password overwrites its
  error, may rename a truncated file, loses a character of a last line without newline, and deletes the user's entry for
  howmany 0.

**pam_time and pam_group**
* A last rule without newline loses its last field: pam_time then denies always, pam_group grants nothing
  (`last_newline_needed_refuted`); a file ending in `login;*;*;` dereferences NULL (`every_file_is_handled_refuted`);
  an unreadable file admits everyone (`unreadable_file_denies_refuted`).
* A wildcard suffix longer than the name reads before the string (`wildcard_defined_refuted`); prefix and suffix may overlap
  (`wildcard_overlap_refuted`); a malformed time admits always (`bad_time_admits_nothing_refuted`); a same-day range excludes
  its end minute, an overnight range includes it (`range_end_alike_refuted`).
* A field above 1000 bytes turns the rest of the line into a comment; memory exhaustion drops the groups
  (`pam_group_keeps_groups_refuted`).

**libpamc and misc_conv**
* C38: agent names are checked at every other character only (`agent_id_checked_alternately`,
  `accepted_names_are_legal_refuted`, `legal_names_are_accepted_refuted`).
* C51: a reply declaring a size below 4 overflows the heap block (`any_answer_is_safe_refuted`); pamc_list_agents works for at
  most one agent (`list_agents_outcome`, `agents_can_be_listed_refuted`); descriptors above the guess leak
  (`no_descriptor_leaks_refuted`); octets ≥ 128 shifted by 24 overflow int.
* C39: failure after an answered binary prompt is undefined (`failure_after_binary_is_safe_refuted`); binary control 0
  (`any_binary_message_is_safe_refuted`); a failing handler leaks (`handler_failure_frees_refuted`); time-out or end of input
  count as success without response (`time_out_is_error_refuted`, `end_of_input_is_error_refuted`); the rest of an over-long
  line answers the next prompt (`each_line_one_prompt_refuted`); typed text can stay in the buffer (`line_always_wiped_refuted`).

**pam_access**
* C52: a last rule without newline does not count, so `-:ALL:ALL` at the end of a table lets everyone in
  (`last_rule_counts_refuted`); so does a denying rule with a mistake (`malformed_rule_denies_refuted`); the verdict looks at
  the first character of the line, not of the permission field (`permission_field_decides_refuted`).
* Naming the default table with accessfile switches access.d off (`default_accessfile_same_refuted`); memory exhaustion
  drops tables (`tables_read_or_denied_refuted`).
* A subnet word in an earlier rule leaves only IPv4 addresses of the remote host for later rules
  (`other_rules_do_not_matter_refuted`); getnameinfo's result is not checked in one place, which reads an uninitialised
  buffer when it fails (`no_undefined_behaviour_refuted`).
* C53: network/0 means only that address (`prefix_zero_refuted`), /030 means 24 bits (`prefix_decimal_refuted`), user names match
  without regard to case (`user_names_distinct_refuted`), 127.0.0.1 matches ::1 (`address_of_one_family_refuted`).
* The word NONE never matches, because the origin is never NULL; the ALL/YES distinction for the audit record is lost in list_match.

**Hash functions**
* C54: sha1_update adds the size_t length of a piece to a uint32 counter with at most one carry, so a piece of 2^33 octets is miscounted (`long_piece_refuted`).
* C56: the Broken variant of MD5 on a big-endian machine is not MD5 (`broken_on_big_endian_refuted`), as its name says; hashes
  made there do not verify elsewhere.

**pam_timestamp**
* C58: if the first directory on the way does not exist an uninitialised struct stat is examined (`missing_directory_refuted`);
  later ones may be missing. A terminal named `x:b` and a target `b` on terminal `x` share a file (`names_distinct_refuted`); the
  target's name is not looked at and can lead out of the directory (`stays_below_directory_refuted`).
* A stamp is good up to twice the interval in the future (`good_for_interval_only_refuted`); a very large timeout overflows
  (`large_timeout_defined_refuted`); an empty timestamp_timeout= is 0, i.e. no stamp is good (`empty_timeout_ignored_refuted`).
* utmp times after 2038 (`login_after_2038_refuted`) and names that agree in 32 characters (`own_login_needed_refuted`) pass the
  login test wrongly.
* C59: when making the key fails half-way an empty or short key file stays, and no session or authentication succeeds until
  someone removes it (`key_made_good_refuted`). With timestampdir=/var/run, a requester called pam_timestamp and a terminal called
  _pam_timestamp_key a session overwrites the key (`key_kept_refuted`). The owner and mode of the key file are never checked.
* C60: pam_timestamp_check looks at the file's time only (`check_agrees_refuted`).
* Seen, not modelled: lstat of a name with trailing slash follows a symbolic link, so the test for symbolic links is without effect
  for all but the last component.

**pam_listfile**
* C61: `item=group item=user` still compares groups, which lets a listed user past sense=deny (`last_item_counts_refuted`); onerr=
  is honoured only for mistakes after it (`order_irrelevant_refuted`); apply= is passed over while PAM_USER is unset
  (`apply_limits_refuted`).

**pam_succeed_if**
* C62: the relation in compares with strstr between colons, so a remote user called `ax:a` is found in `root:ax:a` and missed in
  `ax:ax:a` (`in_means_item_refuted`). `user != audit` is an error because audit is an option (`any_value_refuted`).
  `uid < 01000` is octal (`decimal_numbers_refuted`).

**pam_securetty**
* C63: a terminal given as a number is to stand for pts/number, but that name is compared with the terminal's own instead of with the
  line, so that it never matches (`number_means_pts_refuted`). The first eight characters of /proc/cmdline are skipped unread as if they were
  `console=` (`console_word_needed_refuted`), and with fewer than eight characters the scan starts behind the string (`defined_refuted`).
  The terminal `/dev/` has an empty name and an empty line in the list admits it (`nameless_refused_refuted`). Without a list root is
  admitted anywhere (`no_list_refused_refuted`, documented).

**pam_wheel, pam_nologin, pam_shells**
* C64: `deny group=x` for a group that does not exist gives PAM_IGNORE, so that the rule denies nobody (`denied_group_gone_refuted`).
* C65: a /etc/nologin that is a directory, or shrinks while read, refuses root too (`root_passes_refuted`).

**pam_usertype, pam_faildelay**
* C66: a uid between SYS_UID_MAX and UID_MIN is regular (`below_min_is_system_refuted`); `UID_MIN -18446744073709546616` counts as 5000
  (`negative_ignored_refuted`); `delay=` without a valid number stops the module from setting any delay (`invalid_delay_ignored_refuted`).

**pam_umask**
* C67: `umask=` without an octal number in GECOS sets the mask to 0, unlike the option, which then is ignored
  (`bad_mask_ignored_refuted`). `ulimit=36028797018963968` in GECOS overflows a signed product (`umask_defined_refuted`); with chfn the
  field is under the user's control on many systems.

**pam_pwhistory**
* C68: a history that is there but cannot be opened counts as empty (`unreadable_refuses_refuted`). A line of the user's that is
  malformed counts as no record and is dropped by the next save.
* C69: the result of rename is ignored: PAM_SUCCESS although nothing was saved (`success_saves_refuted`). The test whether the current
  hash is the last one is skipped when more are recorded than are to be kept, and it is then saved twice (`saved_once_refuted`). A last
  line without newline is run together with the new line: another user's record is changed, the user's own is lost
  (`other_records_kept_refuted`). Hashes that contain a comma (sunmd5's rounds, argon2's parameters) are taken apart on reading and never
  match again (`comma_refused_refuted`).
* C70: `remember=4294967296` is cut to 32 bits before it is limited, and switches the module off (`large_remember_refuted`). The
  configuration file's value is not limited: `remember = 4294967295` is -1, nothing is saved, and the current password may be
  chosen again (`conf_remember_refuted`).

**pam_env**
* C72: a blank or a comment at the end of a line of pam_env.conf makes the line malformed (`trailing_blank_tolerated_refuted`,
  `trailing_comment_tolerated_refuted`). A malformed line is passed over unless it is the last one, when the module returns PAM_ABORT
  (`malformed_line_fails_refuted`, `malformed_last_line_aborts`). Unsetting a variable that is not set counts likewise, so the documented
  entry `REMOTEHOST DEFAULT= OVERRIDE=@{PAM_RHOST}` as last line fails every local login (`documented_remotehost_refuted`). An empty word
  behind a quoted value takes over the quote (`order_of_arguments_refuted`). The name is not checked: the line `A=b` sets A
  (`bare_line_unsets_refuted`).
* C73: a number sign inside quotes ends the value, and the closing quote is lost without a message (`quoted_hash_kept_refuted`).
* C74: without pam_env.conf the environment file is not read either (`missing_conf_skips_all`).

**pam_unix passwords**
* C76: a write error while the lines of opasswd are copied is forgotten when the user has no row yet: the rest of the file is lost and
  the call succeeds (`failed_write_reported_refuted`; passverify.c:749-757 overwrites `err`). Without a newline at the end of the file
  the new row is glued to another user's, and the user's own last hash loses a character (`unfinished_file_refuted`). remember=0 makes a row
  for a user without one and drops it with the next change (`remember_none_refuted`). A row of too few fields is dropped and hides an
  earlier row (`short_row_refuted`). If fdopen fails the temporary file stays (`temporary_file_stays_refuted`).
* C78: lines of /etc/passwd that are no entries are lost with every change (`comments_kept_refuted`).
* C80: if the shadow file is written and then /etc/passwd cannot be, the call fails but the new hash counts
  (`failure_changes_nothing_refuted`). The old password is only looked at if PAM_OLDAUTHTOK is set: it is the application's PAM library and
  the first call that make sure of this (`old_password_needed_refuted`). If the user is in the user database but not in /etc/passwd at the second
  look, _do_setpass reports success without doing anything (`set_to` does not cover this case since the first look, under which the theorem
  is stated, is at the same file).

**pam_userdb**
* C81: with key_only the key is user-password: the entry of user `ann-b` with password `pw` lets `ann` in with `b-pw` and makes ann's account
  good (`own_entry_refuted`). A misspelt crypt= means plain text, the stored hash is the password then
  (`unknown_method_refused_refuted`, a warning is logged). The data is copied with strndup: what follows a NUL is not compared
  (`whole_data_compared_refuted`).
* C82: pam_sm_acct_mgmt does not test whether db= was given and opens a null pointer; dump prints key and data with %s up to a NUL that
  need not be there (`account_defined_refuted`).

**pam_limits**
* C83: limits.conf(5) says a domain with only a dash means no limits for it; for `*` and `%group` it means nothing (`wildcard_dash_refuted`), for
  `%:<gid>` it compares the user's uid (`percent_gid_dash_refuted`). It also says a member's own limit is set although the group has
  none; the group's dash line ends the reading (`individual_over_group_refuted`). Uids in ranges are taken modulo 2^32, values may be negative
  or followed by text (`odd_numbers_refuted`).
* C84: the hard part of a `-` line is dropped if the soft limit has a higher precedence already: `joe soft nofile 15` and
  `@admin - nofile 5` leave joe's hard limit as it was (`dash_sets_both_refuted`). Priority and nonewprivs take the last line of any
  precedence; a wrong nonewprivs value means 0 (`priority_precedence_refuted`).
* C85: flag_numsyslogins and login_group are set before it is known whether the line is taken: with `joe - maxlogins 2` and
  `* - maxsyslogins 100` joe is refused when two others are logged in (`numsys_of_winner_refuted`, `group_of_winner_refuted`).
  `% maxlogins` and `* maxsyslogins` are not the same (`percent_is_syslogins_refuted`). A name of more than 32 bytes is never equal to
  ut_user (`long_name_refuted`).

**pam_faillock settings**
* C88: sscanf with %hu and %u keeps the low bits: `deny = 65536` switches the module off, `unlock_time = 4294967296` locks for ever
  (`faillock_large_number_refuted`); `unlock_time = 10min` is ten seconds, `deny = -1` is 65535 (`faillock_malformed_number_refuted`);
  `even_deny_root = no` is the same as without the value (`faillock_flag_value_refuted`).

**pam_motd**
* C89: a list of directories with an empty name that is not the first makes pam_split_string count more places than tokens; the NULL left
  over is given to scandir, which reads through it (`motd_empty_directory_refuted`: for all such lists).
* C89: open succeeds for a directory too, so a subdirectory `/etc/motd.d/x` hides the file `/usr/lib/motd.d/x` (`motd_hidden_refuted`).

**pam_echo**
* C90: `file=` without a value is not an error: the arguments are shown, `file=` itself among them (`echo_empty_file_refuted`).

**pam_tty_audit**
* C92: `uid_t = strtoul(...)` keeps 32 bits: `enable=:4294967296` is for root and `-1` is a number too (`ttyaudit_large_uid_refuted`).

**pam_namespace**
* C93: a symlink of root's whose target leads through a directory of a user's is followed by the kernel in one step, so a link of the user's there decides which directory is opened (`nsopen_user_link_refuted`). A path with `//` is refused (openat of an empty name) although the kernel would open it (`nsopen_double_slash_refuted`).
* C94: `expand_variables` looks at `expanded[-1]` when the text begins with a variable whose value is empty (a user without home directory and `$HOME/...`), `ns_empty_home_refuted`. A method of colons only, or `""`, leads to `strcmp(NULL, ...)` (`ns_empty_method_refuted`). Flags are matched by prefix: `createx` is `create` (`ns_flag_prefix_refuted`). Only `dir` and `instance_prefix` are checked for `..`, `rdir` is not (`ns_rdir_refuted`).

* C95: with the context method the name is `context_user` joined by an underscore, so `tmp_t` + `x_joe` and `tmp_t_x` + `joe` share an instance (`ns_contexts_apart_refuted`). `check_safe_path` accepts sticky directories that everyone may write although its comment says otherwise (`ns_safe_path_sticky_refuted`). With PAM_RUSER set, `get_user_data` calls `strncat` on `idata->ruser`, which nothing has initialised (`ns_ruser_refuted`).
* C96: the manual describes `unmnt_only` as unmounting only; an entry that applies to the session's user but not to the caller is nevertheless set up (`ns_unmount_only_refuted`). If a tmpdir entry fails before `mkdtemp`, `cleanup_tmpdirs` runs `rm -rf` on the literal template name in the parent, which the session did not make (`ns_cleanup_refuted`). `cwd_in` compares a prefix: `/tmpfoo` counts as inside `/tmp` (`ns_cwd_refuted`).

* C97: the variables for the items are appended to the PAM environment, so a `PAM_USER=root` put there by another module (pam_env reads files of the user) comes first and is what `getenv` finds in the program (`exec_user_refuted`). When `fork` fails the pipes stay open and SIGCHLD keeps its default handling; with `stdout` and no program named a pipe leaks too (`exec_leak_refuted`). `pam_getenvlist` returning NULL is not checked in the child (`exec_crash_refuted`). `strncpy` into a buffer of 512 cuts the password silently (`exec_whole_token_refuted`).

* C98: `umask=77` is read in base 8 by the module and in base 0 by the helper: the home directory gets 0700, the files 0662, writable by everybody (`mkhome_umask_refuted`; with a leading 0 the two agree, `mkhome_mode_agrees`). UMASK of /etc/login.defs decides the mode of the home directory only, the files get 0022 (`mkhome_defs_refuted`). A dangling link in the place of the home directory is success (`mkhome_dangling_refuted`). A home directory written with a slash at the end is made as a parent, root's, after which the helper fails; the next login succeeds (`mkhome_slash_refuted`). Entries of the skeleton that cannot be looked at are skipped with success (`mkhome_skipped_refuted`). After a failed copy the directory stays, the user's but incomplete, and the next login succeeds (`mkhome_retry_refuted`).

* C99: an anonymous user sets PAM_RHOST with the answer to the e-mail prompt, or removes it by an answer without @, so that modules after pam_ftp (pam_access, pam_time's log, faillock records) see a host chosen by the client (`ftp_rhost_refuted`). With `users=,guest` PAM_USER becomes `,guest` (`ftp_guest_refuted`). A conversation that succeeds without a response makes `strtok_r` read through NULL (`ftp_crash_refuted`). PAM_USER is changed or removed even when the module then fails (`ftp_failed_user_refuted`).

* C101: after a keyring was revoked the saved gid of the process is the user's (`saved_gid_kept_refuted`). Closing returns PAM_SUCCESS though the keyring was not revoked and the effective uid is still the user's (`close_session_result_refuted`). If linking the user's keyring fails the call fails, but the next one succeeds with the same incomplete keyring (`keyring_linked_refuted`). A session of a second user in the same process goes on with the keyring of the first (`own_keyring_refuted`).
* C102: in a user namespace a session is not refused (PAM_IGNORE) though the login uid stays that of another user (`other_loginuid_refuted`).

* C104: if the program that lists the cookies cannot be started (no pipe, no process, no memory), the session is opened with PAM_SUCCESS and without cookies (`xauth_handed_refuted`), and after a failed fork SIGCHLD keeps the default action, the handler of the application is not put back (run_coprocess returns without sigaction, pam_xauth.c:129-137). If the program that stores them cannot be started, the result is success with an empty file (`xauth_written_refuted`). If privileges cannot be regained or strdup fails after mkstemp, the file stays in the home directory and nobody knows it (`xauth_file_left_refuted`). If pam_set_data fails, the file in the home directory of the target is removed with the privileges of the process instead of the target's (`xauth_unlink_as_user_refuted`). After a failure XAUTHORITY stays set in the PAM environment (`xauth_pamenv_refuted`). Two sessions on one handle leave the first file behind (`xauth_two_sessions_refuted`).
* C98: `umask=` with nothing after it is not refused as a bogus value but read as 0 by both programs: home directory 0777, files writable by everybody (`mkhome_empty_mask_refuted`).

* C105: "dir= specification missing argument - ignored" (pam_mail.c:82-90) is not so after another dir=: the path becomes empty and the folder is `/name` (`mail_empty_dir_refuted`). At the end of the session a failure to drop privileges leaves MAIL set (`mail_removed_refuted`). With `empty` or `standard` a user whose Maildir cannot be read is told that there is no mail (`mail_none_refuted`). A message that cannot be shown makes opening the session fail after MAIL was set (`mail_conversation_refuted`). The check `if (!ep)` of the number of hash= (94) never holds: letters count as 0 and -1 as every letter of the name (`mail_hash_example`).

* C106: a line of sepermit.conf that has only colons makes strtok_r return NULL, which is dereferenced (pam_sepermit.c:318-320): `sepermit_colons_refuted`. A `#` after white space does not begin a comment, and a line ending within `Uid:` in a status file compares a number that was never written, since EOF of sscanf is not 0 (100).
* C107: a second call on the same handle, as by an account stack after an authentication stack, takes the lock again, and pam_set_data then cleans up the first record: all processes of the user are killed and the lock is given back, so that the login goes on, successfully, without any lock (`sepermit_second_refuted`; pam_sepermit.c:275, libpam/pam_data.c:85-89). check_running returns -1 if /proc cannot be read, which counts as no process (`sepermit_blind_refuted`). The result of pam_set_data is ignored (`sepermit_unrecorded_refuted`).

* C108: the file system of the home directory is often the wrong one. A root directory that is listed after /home replaces it, since mnt_len == 0 does not look at match_size (pam_setquota.c:278): `quota_deepest_refuted`. A home directory that is a mount point itself is never matched, since a slash has to follow (280): the limits go to another device (`quota_own_mount_refuted`). Of two file systems on one directory the first, hidden, one is taken (`quota_hidden_refuted`). enduid= has no effect with startuid=0 (238; the manual only says so of enduid=0): `quota_enduid_refuted`. overwrite= is a long kept in an int, 4294967297 is 1 (152): `quota_overwrite_refuted`.

* C109: ll_time of glibc is a 32-bit integer. From 2038 on the time of a login is kept as a negative number, and the next authentication counts the days from 1901 and locks the user out: `lastlog_2038_refuted` (pam_lastlog.c:406, 301, 721). The failures of C110 are then all left out, since the same number is taken as a large unsigned one (572). Text after the number of inactive= is not looked at (109).
* C110: PAM_SILENT clears showfailed, the option silent does not (159-162): `lastlog_silent_refuted`. ut_user has 32 characters: `lastlog_other_user_refuted`. Above LASTLOG_UID_MAX all failures count as since the last login: `lastlog_since_refuted`. wtmp is written after lastlog could not be (496-499): `lastlog_wtmp_refuted`. The line of a login is cut to 31 characters, that of a logout is not (423, 817): `lastlog_line_refuted`.

* C111: a user without an entry in the password data base is looked up in the policy under the name given (pam_selinux.c:466-468), where the manual page promises PAM_USER_UNKNOWN: `selinux_unknown_refuted`. In the dialogue a process without a range takes the range of the new context away (221), with variables the default range stays (331).
* C112: restore_context does not restore the context for new keys, which the manual page promises (583-612, 646): `selinux_key_refuted`. If SELinux is not enforcing and the label of the terminal cannot be read, the path of the terminal is kept and setfilecon is called with NULL, twice (555, 625, 600): `selinux_null_label_refuted`.

* C113: the loop over names of data ends only with success (pam_modutil_getpwnam.c:53-72), so a search with an application's handle, or one for which pam_set_data has no memory, tries 2147483647 names before it returns NULL: `lookup_application`, `lookup_effort_refuted`.

* C114: after a change without PAM_SILENT the token is the response to the text message, normally NULL, not the new password (pam_stress.c:518 reads resp[0], 493 resp[i-2]): `stress_new_token_refuted`. The old password that the option required asks for is replaced by the token of before, or NULL (435, 513-517): `stress_old_token_refuted`.

* C115: with new_term PAM_TTY is not changed if the application has set it (pam_filter.c:554-565), although it should be the terminal of the filter: `filter_new_term_refuted`. A report about another child of the application's, or an interrupted wait, ends the first process with status -1 while the application goes on (485-494, 523-532): `filter_wait_refuted`. In account management the filter gets TYPE=setcred (643-644): `filter_type_refuted`.

* C116: if audit_log_acct_message fails with EPERM the call succeeds without a record (pam_audit.c:57-58): `trail_privilege_refuted`. PAMAUDIT_LOGGED is set also when nothing could be passed on for lack of memory (41, 54), so pam_end records nothing either: `trail_end_refuted`. Module names may have commas, and then the list of granting modules is ambiguous, although empty names and "?" are excluded for the sake of the trail (pam_handlers.c:595-599): `trail_comma_refuted`.

* C117: in the legacy format the source of the last record is printed with %s (main.c:202-203), although it need not be terminated (faillock.h:56-57; the module stores a long host name without a NUL, pam_faillock.c:359): the array is read past its end: `tool_legacy_refuted`. Results for single users are ignored when all are handled, so the exit status is 0 even if no file could be emptied (306, 311): `tool_all_refuted`. Showing a user without failures creates a tally file (225): `tool_creates_refuted`.

## Theorems and what they rest on

`Print Assumptions` of every theorem of `MANIFEST.json` (generated by a script from its output).

| property | status | theorem | file | assumptions |
|---|---|---|---|---|
| C01 | proved | `dispatch_fail_closed` | Dispatch_Props.v | none (closed under the global context) |
| C01 | proved | `dispatch_empty_denies` | Dispatch_Props.v | none (closed under the global context) |
| C01 | proved | `no_success_without_module_success` | Dispatch_Props.v | none (closed under the global context) |
| C01 | proved | `audit_never_grants` | Dispatch_Props.v | none (closed under the global context) |
| C02 | proved | `substack_semantics` | Dispatch_Props.v | none (closed under the global context) |
| C02 | proved | `substack_semantics_for_tree` | Dispatch_Props.v | none (closed under the global context) |
| C03 | proved | `keyword_stack_meaning` | Dispatch_Props.v | none (closed under the global context) |
| C03 | proved | `kw_result_success` | Dispatch_Props.v | none (closed under the global context) |
| C03 | proved | `kw_result_first_failure` | Dispatch_Props.v | none (closed under the global context) |
| C04 | proved | `resume_is_transparent` | Dispatch_Props.v | none (closed under the global context) |
| C04 | proved | `answered_modules_not_rerun` | Dispatch_Props.v | none (closed under the global context) |
| C05 | proved | `only_suspended_call_resumable` | Dispatch_Props.v | none (closed under the global context) |
| C06 | partial | `frozen_chain_same_modules_refuted` | Dispatch_Props.v | none (closed under the global context) |
| C06 | partial | `frozen_chain_same_modules` | Dispatch_Props.v | none (closed under the global context) |
| C07 | proved | `dispatch_no_undefined_behaviour` | Dispatch_Props.v | none (closed under the global context) |
| C08 | proved | `fatal_answers_never_succeed` | Dispatch_Props.v | none (closed under the global context) |
| C08 | proved | `room_is_remaining_items` | Dispatch_Props.v | none (closed under the global context) |
| C09 | proved | `fatal_answers_never_succeed` | Dispatch_Props.v | none (closed under the global context) |
| C09 | proved | `odd_answers_count_as_denied` | Dispatch_Props.v | none (closed under the global context) |
| C10 | proved | `control_list_meaning` | Ctl_Props.v | none (closed under the global context) |
| C10 | proved | `control_garbage_all_bad` | Ctl_Props.v | none (closed under the global context) |
| C10 | proved | `jump_numbers_exact` | Ctl_Props.v | none (closed under the global context) |
| C10 | proved | `control_total` | Ctl_Props.v | none (closed under the global context) |
| C100 | proved | `rootok_decides` | Ftp_Props.v | none (closed under the global context) |
| C100 | proved | `rhosts_decides` | Ftp_Props.v | none (closed under the global context) |
| C100 | proved | `localuser_decides` | Ftp_Props.v | none (closed under the global context) |
| C100 | proved | `canonical_name` | Ftp_Props.v | none (closed under the global context) |
| C100 | proved | `permit_decides` | Ftp_Props.v | none (closed under the global context) |
| C100 | proved | `debug_decides` | Ftp_Props.v | none (closed under the global context) |
| C101 | partial | `keyring_history` | Keyinit_Props.v | none (closed under the global context) |
| C101 | partial | `keyring_owner` | Keyinit_Props.v | none (closed under the global context) |
| C101 | partial | `revoked_when_asked` | Keyinit_Props.v | none (closed under the global context) |
| C101 | partial | `close_revokes` | Keyinit_Props.v | none (closed under the global context) |
| C101 | partial | `forced_keyring` | Keyinit_Props.v | none (closed under the global context) |
| C101 | partial | `keyinit_ids_kept` | Keyinit_Props.v | none (closed under the global context) |
| C101 | partial | `saved_gid_kept_refuted` | Keyinit_Props.v | none (closed under the global context) |
| C101 | partial | `close_session_result_refuted` | Keyinit_Props.v | none (closed under the global context) |
| C101 | partial | `keyring_linked_refuted` | Keyinit_Props.v | none (closed under the global context) |
| C101 | partial | `own_keyring_refuted` | Keyinit_Props.v | none (closed under the global context) |
| C102 | partial | `loginuid_set` | Loginuid_Props.v | none (closed under the global context) |
| C102 | partial | `loginuid_not_set` | Loginuid_Props.v | none (closed under the global context) |
| C102 | partial | `auditd_accepted` | Loginuid_Props.v | none (closed under the global context) |
| C102 | partial | `other_loginuid_refuted` | Loginuid_Props.v | none (closed under the global context) |
| C103 | proved | `xauth_options` | Xauth_Props.v | none (closed under the global context) |
| C103 | proved | `xauth_consent` | Xauth_Props.v | none (closed under the global context) |
| C103 | proved | `xauth_forwards` | Xauth_Props.v | none (closed under the global context) |
| C103 | proved | `xauth_refuses` | Xauth_Props.v | none (closed under the global context) |
| C104 | partial | `xauth_success` | Xauth_Props.v | none (closed under the global context) |
| C104 | partial | `xauth_variable` | Xauth_Props.v | none (closed under the global context) |
| C104 | partial | `xauth_file_kept` | Xauth_Props.v | none (closed under the global context) |
| C104 | partial | `xauth_closes` | Xauth_Props.v | none (closed under the global context) |
| C104 | partial | `xauth_removed` | Xauth_Props.v | none (closed under the global context) |
| C104 | partial | `xauth_handed_refuted` | Xauth_Props.v | none (closed under the global context) |
| C104 | partial | `xauth_written_refuted` | Xauth_Props.v | none (closed under the global context) |
| C104 | partial | `xauth_file_left_refuted` | Xauth_Props.v | none (closed under the global context) |
| C104 | partial | `xauth_unlink_as_user_refuted` | Xauth_Props.v | none (closed under the global context) |
| C104 | partial | `xauth_pamenv_refuted` | Xauth_Props.v | none (closed under the global context) |
| C104 | partial | `xauth_two_sessions_refuted` | Xauth_Props.v | none (closed under the global context) |
| C105 | proved | `mail_effects` | Mail_Props.v | none (closed under the global context) |
| C105 | proved | `mail_done` | Mail_Props.v | none (closed under the global context) |
| C105 | proved | `mail_result` | Mail_Props.v | none (closed under the global context) |
| C105 | proved | `mail_empty_dir_refuted` | Mail_Props.v | none (closed under the global context) |
| C105 | proved | `mail_removed_refuted` | Mail_Props.v | none (closed under the global context) |
| C105 | proved | `mail_none_refuted` | Mail_Props.v | none (closed under the global context) |
| C105 | proved | `mail_conversation_refuted` | Mail_Props.v | none (closed under the global context) |
| C106 | partial | `sepermit_result` | Sepermit_Props.v | none (closed under the global context) |
| C106 | partial | `sepermit_defined` | Sepermit_Props.v | none (closed under the global context) |
| C106 | partial | `sepermit_colons_refuted` | Sepermit_Props.v | none (closed under the global context) |
| C107 | partial | `sepermit_result` | Sepermit_Props.v | none (closed under the global context) |
| C107 | partial | `sepermit_end` | Sepermit_Props.v | none (closed under the global context) |
| C107 | partial | `sepermit_second_refuted` | Sepermit_Props.v | none (closed under the global context) |
| C107 | partial | `sepermit_blind_refuted` | Sepermit_Props.v | none (closed under the global context) |
| C107 | partial | `sepermit_unrecorded_refuted` | Sepermit_Props.v | none (closed under the global context) |
| C108 | proved | `quota_set` | Setquota_Props.v | none (closed under the global context) |
| C108 | proved | `quota_unset` | Setquota_Props.v | none (closed under the global context) |
| C108 | proved | `quota_deepest_refuted` | Setquota_Props.v | none (closed under the global context) |
| C108 | proved | `quota_own_mount_refuted` | Setquota_Props.v | none (closed under the global context) |
| C108 | proved | `quota_hidden_refuted` | Setquota_Props.v | none (closed under the global context) |
| C108 | proved | `quota_enduid_refuted` | Setquota_Props.v | none (closed under the global context) |
| C108 | proved | `quota_overwrite_refuted` | Setquota_Props.v | none (closed under the global context) |
| C109 | proved | `lastlog_inactive` | Lastlog_Props.v | none (closed under the global context) |
| C109 | proved | `lastlog_roundtrip` | Lastlog_Props.v | none (closed under the global context) |
| C109 | proved | `lastlog_2038_refuted` | Lastlog_Props.v | none (closed under the global context) |
| C11 | proved | `keywords_are_their_bracket_forms` | Ctl_Props.v | none (closed under the global context) |
| C11 | proved | `include_words` | Ctl_Props.v | none (closed under the global context) |
| C110 | partial | `lastlog_recorded` | Lastlog_Props.v | none (closed under the global context) |
| C110 | partial | `lastlog_success` | Lastlog_Props.v | none (closed under the global context) |
| C110 | partial | `lastlog_wtmp` | Lastlog_Props.v | none (closed under the global context) |
| C110 | partial | `lastlog_limit` | Lastlog_Props.v | none (closed under the global context) |
| C110 | partial | `lastlog_last_login` | Lastlog_Props.v | none (closed under the global context) |
| C110 | partial | `lastlog_told` | Lastlog_Props.v | none (closed under the global context) |
| C110 | partial | `lastlog_failures` | Lastlog_Props.v | none (closed under the global context) |
| C110 | partial | `lastlog_result` | Lastlog_Props.v | none (closed under the global context) |
| C110 | partial | `lastlog_closed` | Lastlog_Props.v | none (closed under the global context) |
| C110 | partial | `lastlog_silent_refuted` | Lastlog_Props.v | none (closed under the global context) |
| C110 | partial | `lastlog_other_user_refuted` | Lastlog_Props.v | none (closed under the global context) |
| C110 | partial | `lastlog_since_refuted` | Lastlog_Props.v | none (closed under the global context) |
| C110 | partial | `lastlog_wtmp_refuted` | Lastlog_Props.v | none (closed under the global context) |
| C110 | partial | `lastlog_line_refuted` | Lastlog_Props.v | none (closed under the global context) |
| C111 | proved | `selinux_context` | Selinux_Props.v | none (closed under the global context) |
| C111 | proved | `selinux_context_given` | Selinux_Props.v | none (closed under the global context) |
| C111 | proved | `selinux_refused` | Selinux_Props.v | none (closed under the global context) |
| C111 | proved | `selinux_unknown_refuted` | Selinux_Props.v | none (closed under the global context) |
| C112 | proved | `selinux_success` | Selinux_Props.v | none (closed under the global context) |
| C112 | proved | `selinux_nothing_set` | Selinux_Props.v | none (closed under the global context) |
| C112 | proved | `selinux_restored` | Selinux_Props.v | none (closed under the global context) |
| C112 | proved | `selinux_enforced` | Selinux_Props.v | none (closed under the global context) |
| C112 | proved | `selinux_only` | Selinux_Props.v | none (closed under the global context) |
| C112 | proved | `selinux_permissive` | Selinux_Props.v | none (closed under the global context) |
| C112 | proved | `selinux_gone` | Selinux_Props.v | none (closed under the global context) |
| C112 | proved | `selinux_audit` | Selinux_Props.v | none (closed under the global context) |
| C112 | proved | `selinux_key_refuted` | Selinux_Props.v | none (closed under the global context) |
| C112 | proved | `selinux_null_label_refuted` | Selinux_Props.v | none (closed under the global context) |
| C113 | proved | `lookup_entry` | Lookup_Props.v | none (closed under the global context) |
| C113 | proved | `lookup_size` | Lookup_Props.v | none (closed under the global context) |
| C113 | proved | `lookup_ends` | Lookup_Props.v | none (closed under the global context) |
| C113 | proved | `lookup_alive` | Lookup_Props.v | none (closed under the global context) |
| C113 | proved | `lookup_application` | Lookup_Props.v | none (closed under the global context) |
| C113 | proved | `lookup_effort_refuted` | Lookup_Props.v | none (closed under the global context) |
| C113 | proved | `getlogin_same` | Lookup_Props.v | none (closed under the global context) |
| C114 | proved | `stress_password` | Stress_Props.v | none (closed under the global context) |
| C114 | proved | `stress_authenticate` | Stress_Props.v | none (closed under the global context) |
| C114 | proved | `stress_results` | Stress_Props.v | none (closed under the global context) |
| C114 | proved | `stress_idle` | Stress_Props.v | none (closed under the global context) |
| C114 | proved | `stress_changed` | Stress_Props.v | none (closed under the global context) |
| C114 | proved | `stress_differ` | Stress_Props.v | none (closed under the global context) |
| C114 | proved | `stress_unanswered` | Stress_Props.v | none (closed under the global context) |
| C114 | proved | `stress_old_failed` | Stress_Props.v | none (closed under the global context) |
| C114 | proved | `stress_only` | Stress_Props.v | none (closed under the global context) |
| C114 | proved | `stress_expired` | Stress_Props.v | none (closed under the global context) |
| C114 | proved | `stress_new_token_refuted` | Stress_Props.v | none (closed under the global context) |
| C114 | proved | `stress_old_token_refuted` | Stress_Props.v | none (closed under the global context) |
| C115 | proved | `filter_arguments` | Filter_Props.v | none (closed under the global context) |
| C115 | proved | `filter_args_fit` | Filter_Props.v | none (closed under the global context) |
| C115 | proved | `filter_restored` | Filter_Props.v | none (closed under the global context) |
| C115 | proved | `filter_success` | Filter_Props.v | none (closed under the global context) |
| C115 | proved | `filter_none` | Faillock_Props.v | none (closed under the global context) |
| C115 | proved | `filter_works` | Filter_Props.v | none (closed under the global context) |
| C115 | proved | `filter_ran` | Filter_Props.v | none (closed under the global context) |
| C115 | proved | `filter_status` | Filter_Props.v | none (closed under the global context) |
| C115 | proved | `filter_tty` | Filter_Props.v | none (closed under the global context) |
| C115 | proved | `filter_new_term_refuted` | Filter_Props.v | none (closed under the global context) |
| C115 | proved | `filter_wait_refuted` | Filter_Props.v | none (closed under the global context) |
| C115 | proved | `filter_type_refuted` | Filter_Props.v | none (closed under the global context) |
| C116 | proved | `trail_fits` | Audit_Props.v | none (closed under the global context) |
| C116 | proved | `trail_readable` | Audit_Props.v | none (closed under the global context) |
| C116 | proved | `trail_record` | Audit_Props.v | none (closed under the global context) |
| C116 | proved | `trail_agrees` | Audit_Props.v | none (closed under the global context) |
| C116 | proved | `trail_skipped` | Audit_Props.v | none (closed under the global context) |
| C116 | proved | `trail_complete` | Audit_Props.v | none (closed under the global context) |
| C116 | proved | `trail_alerts` | Audit_Props.v | none (closed under the global context) |
| C116 | proved | `trail_note` | Audit_Props.v | none (closed under the global context) |
| C116 | proved | `trail_privilege_refuted` | Audit_Props.v | none (closed under the global context) |
| C116 | proved | `trail_end_refuted` | Audit_Props.v | none (closed under the global context) |
| C116 | proved | `trail_comma_refuted` | Audit_Props.v | none (closed under the global context) |
| C117 | proved | `tool_arguments` | Fltool_Props.v | none (closed under the global context) |
| C117 | proved | `tool_directory` | Fltool_Props.v | none (closed under the global context) |
| C117 | proved | `tool_reset` | Fltool_Props.v | none (closed under the global context) |
| C117 | proved | `tool_show_keeps` | Fltool_Props.v | none (closed under the global context) |
| C117 | proved | `tool_shown` | Fltool_Props.v | none (closed under the global context) |
| C117 | proved | `tool_source` | Fltool_Props.v | none (closed under the global context) |
| C117 | proved | `tool_old` | Fltool_Props.v | none (closed under the global context) |
| C117 | proved | `tool_defined` | Fltool_Props.v | none (closed under the global context) |
| C117 | proved | `tool_reset_all` | Fltool_Props.v | none (closed under the global context) |
| C117 | proved | `tool_legacy_refuted` | Fltool_Props.v | none (closed under the global context) |
| C117 | proved | `tool_all_refuted` | Fltool_Props.v | none (closed under the global context) |
| C117 | proved | `tool_creates_refuted` | Fltool_Props.v | none (closed under the global context) |
| C12 | proved | `arguments_round_trip` | Tok_Props.v | none (closed under the global context) |
| C12 | proved | `every_list_can_be_written` | Tok_Props.v | none (closed under the global context) |
| C12 | proved | `splitting_is_safe` | Tok_Props.v | none (closed under the global context) |
| C12 | proved | `one_token_is_safe` | Tok_Props.v | none (closed under the global context) |
| C12 | proved | `every_list_can_be_passed_refuted` | Tok_Props.v | none (closed under the global context) |
| C13 | proved | `loading_terminates` | Conf_Props.v | none (closed under the global context) |
| C13 | proved | `loaded_stacks_are_safe` | Conf_Props.v | none (closed under the global context) |
| C13 | proved | `failed_include_leaves_failure` | Conf_Props.v | none (closed under the global context) |
| C14 | partial | `malformed_line_denies` | Conf_Props.v | none (closed under the global context) |
| C14 | partial | `malformed_include_fails_refuted` | Conf_Props.v | none (closed under the global context) |
| C14 | partial | `malformed_line_stack_fails_refuted` | Conf_Props.v | none (closed under the global context) |
| C15 | proved | `lines_follow_the_rules` | Line_Props.v | none (closed under the global context) |
| C15 | proved | `reading_terminates` | Line_Props.v | none (closed under the global context) |
| C15 | proved | `delivered_lines_are_strings` | Line_Props.v | none (closed under the global context) |
| C15 | proved | `cut_continuation_is_an_error` | Line_Props.v | none (closed under the global context) |
| C16 | partial | `module_names` | Conf_Props.v | none (closed under the global context) |
| C16 | partial | `where_files_are_found` | Conf_Props.v | none (closed under the global context) |
| C16 | partial | `stacks_hold_the_configured_entries` | Conf_Props.v | none (closed under the global context) |
| C16 | partial | `every_configuration_is_covered` | Conf_Props.v | none (closed under the global context) |
| C16 | partial | `cells_are_distinct` | Conf_Props.v | none (closed under the global context) |
| C16 | partial | `plain_file_stacks` | Conf_Props.v | none (closed under the global context) |
| C16 | partial | `other_only_when_own_is_empty` | Conf_Props.v | none (closed under the global context) |
| C16 | partial | `inclusions_contribute_one_type` | Conf_Props.v | none (closed under the global context) |
| C16 | partial | `lines_once_for_service_other_refuted` | Conf_Props.v | none (closed under the global context) |
| C17 | partial | `service_names_ignore_case` | Conf_Props.v | none (closed under the global context) |
| C17 | partial | `started_service_stays_in_directory` | Conf_Props.v | none (closed under the global context) |
| C17 | partial | `set_service_stays_in_directory_refuted` | Conf_Props.v | none (closed under the global context) |
| C18 | proved | `putenv_is_a_map_update` | Env_Props.v | none (closed under the global context) |
| C18 | proved | `getenv_returns_last_put` | Env_Props.v | none (closed under the global context) |
| C18 | proved | `getenvlist_is_the_map` | Env_Props.v | none (closed under the global context) |
| C18 | proved | `putenv_codes` | Env_Props.v | none (closed under the global context) |
| C18 | proved | `getenv_of_no_variable_refuted` | Env_Props.v | none (closed under the global context) |
| C19 | proved | `putenv_is_a_map_update` | Env_Props.v | none (closed under the global context) |
| C19 | proved | `env_storage_invariant` | Env_Props.v | none (closed under the global context) |
| C19 | proved | `getenv_never_undefined` | Env_Props.v | none (closed under the global context) |
| C19 | proved | `putenv_codes` | Env_Props.v | none (closed under the global context) |
| C20 | partial | `get_data_returns_last_stored` | Data_Props.v | none (closed under the global context) |
| C20 | partial | `cleanup_exactly_once` | Data_Props.v | none (closed under the global context) |
| C20 | partial | `data_codes` | Data_Props.v | none (closed under the global context) |
| C20 | partial | `application_has_no_module_data` | Data_Props.v | none (closed under the global context) |
| C20 | partial | `cleaned_object_not_retrievable_refuted` | Data_Props.v | none (closed under the global context) |
| C20 | partial | `cleanup_exactly_once_refuted` | Data_Props.v | none (closed under the global context) |
| C20 | partial | `storing_terminates_refuted` | Data_Props.v | none (closed under the global context) |
| C21 | partial | `failure_waits_for_largest_request` | Delay_Props.v | none (closed under the global context) |
| C21 | partial | `no_wait_without_failure_or_request` | Delay_Props.v | none (closed under the global context) |
| C21 | partial | `delay_function_always_called` | Delay_Props.v | none (closed under the global context) |
| C21 | partial | `largest_request_decides_refuted` | Delay_Props.v | none (closed under the global context) |
| C21 | partial | `delay_function_told_of_stale_delay_refuted` | Delay_Props.v | none (closed under the global context) |
| C22 | proved | `delay_within_half` | Delay_Props.v | none (closed under the global context) |
| C23 | proved | `application_cannot_read_or_set_passwords` | Handle_Props.v | none (closed under the global context) |
| C23 | proved | `application_blind_to_passwords` | Handle_Props.v | none (closed under the global context) |
| C23 | proved | `application_has_no_module_data` | Data_Props.v | none (closed under the global context) |
| C23 | proved | `get_item_answers` | Item_Props.v | none (closed under the global context) |
| C24 | proved | `no_password_survives` | Handle_Props.v | none (closed under the global context) |
| C24 | proved | `fresh_call_starts_without_password` | Handle_Props.v | none (closed under the global context) |
| C24 | proved | `no_password_survives_refuted_by_flags` | Handle_Props.v | none (closed under the global context) |
| C25 | partial | `set_item_effect` | Item_Props.v | none (closed under the global context) |
| C25 | partial | `get_item_answers` | Item_Props.v | none (closed under the global context) |
| C25 | partial | `items_hold_last_value` | Item_Props.v | none (closed under the global context) |
| C25 | partial | `failed_set_leaves_item_refuted` | Item_Props.v | none (closed under the global context) |
| C25 | partial | `set_password_from_inside_refuted` | Item_Props.v | none (closed under the global context) |
| C26 | proved | `known_user_returned` | Item_Props.v | none (closed under the global context) |
| C26 | proved | `user_asked_for` | Item_Props.v | none (closed under the global context) |
| C26 | proved | `remembered_failure` | Item_Props.v | none (closed under the global context) |
| C26 | proved | `other_prompt_aborts` | Item_Props.v | none (closed under the global context) |
| C26 | proved | `answer_is_final` | Item_Props.v | none (closed under the global context) |
| C27 | partial | `update_only_after_prelim` | Handle_Props.v | none (closed under the global context) |
| C27 | partial | `phases_follow_protocol` | Handle_Props.v | none (closed under the global context) |
| C27 | partial | `phases_follow_protocol_refuted_by_reload` | Handle_Props.v | none (closed under the global context) |
| C27 | partial | `phases_follow_protocol_refuted_by_audit` | Handle_Props.v | none (closed under the global context) |
| C28 | proved | `control_is_back` | Handle_Props.v | none (closed under the global context) |
| C28 | proved | `management_refused_to_modules` | Handle_Props.v | none (closed under the global context) |
| C28 | proved | `module_calls_have_no_effect` | Handle_Props.v | none (closed under the global context) |
| C29 | proved | `local_user_iff_entry` | Modutil_Props.v | none (closed under the global context) |
| C29 | proved | `no_local_user` | Modutil_Props.v | none (closed under the global context) |
| C30 | proved | `read_is_complete` | Inline_Props.v | none (closed under the global context) |
| C30 | proved | `read_without_errors` | Inline_Props.v | none (closed under the global context) |
| C30 | proved | `write_is_complete` | Inline_Props.v | none (closed under the global context) |
| C30 | proved | `negative_count_refused` | Inline_Props.v | none (closed under the global context) |
| C31 | partial | `failed_drop_changes_nothing` | Modutil_Props.v | none (closed under the global context) |
| C31 | partial | `successful_drop` | Modutil_Props.v | none (closed under the global context) |
| C31 | partial | `drop_defined` | Modutil_Props.v | none (closed under the global context) |
| C31 | partial | `regain_defined` | Modutil_Props.v | none (closed under the global context) |
| C31 | partial | `wrong_order_refused` | Modutil_Props.v | none (closed under the global context) |
| C31 | partial | `regain_restores` | Modutil_Props.v | none (closed under the global context) |
| C31 | partial | `never_left_dropped` | Modutil_Props.v | none (closed under the global context) |
| C31 | partial | `failed_drop_changes_nothing_refuted` | Modutil_Props.v | none (closed under the global context) |
| C31 | partial | `regain_again_restores_refuted` | Modutil_Props.v | none (closed under the global context) |
| C31 | partial | `second_drop_refuted` | Modutil_Props.v | none (closed under the global context) |
| C32 | proved | `passwords_handed_over` | Inline_Props.v | none (closed under the global context) |
| C33 | proved | `consttime_is_equality` | Inline_Props.v | none (closed under the global context) |
| C33 | proved | `consttime_case_is_equality` | Inline_Props.v | none (closed under the global context) |
| C33 | proved | `consttime_reads_by_length` | Inline_Props.v | none (closed under the global context) |
| C34 | partial | `preauth_decides` | Faillock_Props.v | none (closed under the global context) |
| C34 | partial | `history_as_documented` | Faillock_Props.v | none (closed under the global context) |
| C34 | partial | `deny_failures_lock` | Faillock_Props.v | none (closed under the global context) |
| C34 | partial | `file_limited` | Faillock_Props.v | none (closed under the global context) |
| C34 | partial | `never_denied` | Faillock_Props.v | none (closed under the global context) |
| C34 | partial | `read_failure_reported` | Faillock_Props.v | none (closed under the global context) |
| C34 | partial | `deny_failures_lock_refuted` | Faillock_Props.v | none (closed under the global context) |
| C34 | partial | `audit_failure_prevents_lock_refuted` | Faillock_Props.v | none (closed under the global context) |
| C34 | partial | `large_deny_never_locks_refuted` | Faillock_Props.v | none (closed under the global context) |
| C34 | partial | `concurrent_failures_counted_refuted` | Faillock_Props.v | none (closed under the global context) |
| C35 | proved | `aging_as_documented` | Unixage_Props.v | none (closed under the global context) |
| C35 | proved | `verdict_unique` | Unixage_Props.v | none (closed under the global context) |
| C35 | proved | `user_verdict` | Unixage_Props.v | none (closed under the global context) |
| C35 | proved | `account_decision` | Unixage_Props.v | none (closed under the global context) |
| C35 | proved | `account_without_entry` | Unixage_Props.v | none (closed under the global context) |
| C35 | proved | `account_warning` | Unixage_Props.v | none (closed under the global context) |
| C36 | proved | `accepted_is_right` | Unixpw_Props.v | none (closed under the global context) |
| C36 | proved | `right_is_accepted` | Unixpw_Props.v | none (closed under the global context) |
| C36 | proved | `locked_never_accepted` | Unixpw_Props.v | none (closed under the global context) |
| C36 | proved | `empty_accepted_only_with_nullok` | Unixpw_Props.v | none (closed under the global context) |
| C36 | proved | `empty_hash_needs_empty_password` | Unixpw_Props.v | none (closed under the global context) |
| C36 | proved | `verify_defined` | Unixpw_Props.v | none (closed under the global context) |
| C36 | proved | `bigcrypt_in_bounds` | Unixpw_Props.v | none (closed under the global context) |
| C36 | proved | `des_reads_eight` | Unixpw_Props.v | none (closed under the global context) |
| C36 | proved | `bigcrypt_traditional` | Unixpw_Props.v | none (closed under the global context) |
| C37 | partial | `logic_list_value` | Time_Props.v | none (closed under the global context) |
| C37 | partial | `missing_operator_is_false` | Time_Props.v | none (closed under the global context) |
| C37 | partial | `missing_operand_is_false` | Time_Props.v | none (closed under the global context) |
| C37 | partial | `trailing_operator_ignored` | Time_Props.v | none (closed under the global context) |
| C37 | partial | `name_comparison` | Time_Props.v | none (closed under the global context) |
| C37 | partial | `wildcard_meaning` | Time_Props.v | none (closed under the global context) |
| C37 | partial | `range_admits` | Time_Props.v | none (closed under the global context) |
| C37 | partial | `time_file_decides` | Time_Props.v | none (closed under the global context) |
| C37 | partial | `pam_time_decides` | Time_Props.v | none (closed under the global context) |
| C37 | partial | `tty_name_meaning` | Time_Props.v | none (closed under the global context) |
| C37 | partial | `time_account_ends` | Time_Props.v | none (closed under the global context) |
| C37 | partial | `wildcard_overlap_refuted` | Time_Props.v | none (closed under the global context) |
| C37 | partial | `wildcard_defined_refuted` | Time_Props.v | none (closed under the global context) |
| C37 | partial | `range_end_alike_refuted` | Time_Props.v | none (closed under the global context) |
| C37 | partial | `bad_time_admits_nothing_refuted` | Time_Props.v | none (closed under the global context) |
| C37 | partial | `last_newline_needed_refuted` | Time_Props.v | none (closed under the global context) |
| C37 | partial | `every_file_is_handled_refuted` | Time_Props.v | none (closed under the global context) |
| C37 | partial | `unreadable_file_denies_refuted` | Time_Props.v | none (closed under the global context) |
| C38 | partial | `prompt_reads_back` | Pamc_Props.v | none (closed under the global context) |
| C38 | partial | `fill_places` | Pamc_Props.v | none (closed under the global context) |
| C38 | partial | `fill_past_end_stops` | Pamc_Props.v | none (closed under the global context) |
| C38 | partial | `extract_gives` | Pamc_Props.v | none (closed under the global context) |
| C38 | partial | `agent_id_checked_alternately` | Pamc_Props.v | none (closed under the global context) |
| C38 | partial | `plain_names_accepted` | Pamc_Props.v | none (closed under the global context) |
| C38 | partial | `accepted_names_are_legal_refuted` | Pamc_Props.v | none (closed under the global context) |
| C38 | partial | `legal_names_are_accepted_refuted` | Pamc_Props.v | none (closed under the global context) |
| C39 | partial | `one_response_each` | Misc_Props.v | none (closed under the global context) |
| C39 | partial | `failure_leaves_nothing` | Misc_Props.v | none (closed under the global context) |
| C39 | partial | `lines_answer_prompts` | Misc_Props.v | none (closed under the global context) |
| C39 | partial | `terminal_answers_prompts` | Misc_Props.v | none (closed under the global context) |
| C39 | partial | `line_wiped` | Misc_Props.v | none (closed under the global context) |
| C39 | partial | `time_up_fails` | Misc_Props.v | none (closed under the global context) |
| C39 | partial | `failure_after_binary_is_safe_refuted` | Misc_Props.v | none (closed under the global context) |
| C39 | partial | `any_binary_message_is_safe_refuted` | Misc_Props.v | none (closed under the global context) |
| C39 | partial | `handler_failure_frees_refuted` | Misc_Props.v | none (closed under the global context) |
| C39 | partial | `time_out_is_error_refuted` | Misc_Props.v | none (closed under the global context) |
| C39 | partial | `end_of_input_is_error_refuted` | Misc_Props.v | none (closed under the global context) |
| C39 | partial | `each_line_one_prompt_refuted` | Misc_Props.v | none (closed under the global context) |
| C39 | partial | `line_always_wiped_refuted` | Misc_Props.v | none (closed under the global context) |
| C40 | partial | `read_errors_reported_refuted` | Line_Props.v | none (closed under the global context) |
| C40 | partial | `cut_continuation_is_an_error` | Line_Props.v | none (closed under the global context) |
| C41 | partial | `resumed_call_runs_every_module_refuted` | Handle_Props.v | none (closed under the global context) |
| C42 | partial | `new_password_typed_twice` | Item_Props.v | none (closed under the global context) |
| C42 | partial | `verify_asks_again` | Item_Props.v | none (closed under the global context) |
| C42 | partial | `verify_failure_drops` | Item_Props.v | none (closed under the global context) |
| C42 | partial | `known_password_not_asked` | Item_Props.v | none (closed under the global context) |
| C42 | partial | `verify_may_not_ask_refuted` | Item_Props.v | none (closed under the global context) |
| C43 | partial | `helper_descriptors` | Modutil_Props.v | none (closed under the global context) |
| C43 | partial | `helper_descriptors_failure` | Modutil_Props.v | none (closed under the global context) |
| C43 | partial | `all_closed_refuted` | Modutil_Props.v | none (closed under the global context) |
| C44 | proved | `search_key_first` | Modutil_Props.v | none (closed under the global context) |
| C45 | partial | `in_group_iff_member` | Modutil_Props.v | none (closed under the global context) |
| C45 | partial | `unknown_is_no_member` | Modutil_Props.v | none (closed under the global context) |
| C45 | partial | `member_reported_refuted` | Modutil_Props.v | none (closed under the global context) |
| C46 | partial | `options_defined` | Unixctl_Props.v | none (closed under the global context) |
| C46 | partial | `simple_options` | Unixctl_Props.v | none (closed under the global context) |
| C46 | partial | `debug_option` | Unixctl_Props.v | none (closed under the global context) |
| C46 | partial | `nullok_option` | Unixctl_Props.v | none (closed under the global context) |
| C46 | partial | `hash_method` | Unixctl_Props.v | none (closed under the global context) |
| C46 | partial | `first_pass_options` | Unixctl_Props.v | none (closed under the global context) |
| C46 | partial | `phase_flags` | Unixctl_Props.v | none (closed under the global context) |
| C46 | partial | `rounds_sane` | Unixctl_Props.v | none (closed under the global context) |
| C46 | partial | `rounds_default` | Unixctl_Props.v | none (closed under the global context) |
| C46 | partial | `strtol_reads_numbers` | Unixctl_Props.v | none (closed under the global context) |
| C46 | partial | `number_options` | Unixctl_Props.v | none (closed under the global context) |
| C46 | partial | `quiet_option_partial` | Unixctl_Props.v | none (closed under the global context) |
| C46 | partial | `quiet_option_refuted` | Unixctl_Props.v | none (closed under the global context) |
| C47 | proved | `loaded_handlers_are_complete` | Loaded_Props.v | none (closed under the global context) |
| C47 | proved | `unread_configuration_runs_nothing` | Loaded_Props.v | none (closed under the global context) |
| C48 | proved | `chkpwd_hides_shadow` | Unixpw_Props.v | none (closed under the global context) |
| C48 | proved | `chkpwd_reads_one_user` | Unixpw_Props.v | none (closed under the global context) |
| C48 | proved | `helper_success_is_right` | Unixpw_Props.v | none (closed under the global context) |
| C48 | proved | `helper_confirms_right` | Unixpw_Props.v | none (closed under the global context) |
| C49 | partial | `let_in_only_with_password` | Unixauth_Props.v | none (closed under the global context) |
| C49 | partial | `third_failure` | Unixauth_Props.v | none (closed under the global context) |
| C49 | partial | `helper_agrees` | Unixauth_Props.v | none (closed under the global context) |
| C49 | partial | `setcred_repeats` | Unixauth_Props.v | none (closed under the global context) |
| C49 | partial | `invented_users_let_in_refuted` | Unixauth_Props.v | none (closed under the global context) |
| C49 | partial | `blank_check_agrees_refuted` | Unixauth_Props.v | none (closed under the global context) |
| C50 | proved | `pam_group_grants` | Time_Props.v | none (closed under the global context) |
| C50 | proved | `pam_group_other_flags` | Time_Props.v | none (closed under the global context) |
| C50 | proved | `pam_group_keeps_groups_refuted` | Time_Props.v | none (closed under the global context) |
| C51 | partial | `search_path_is_parts` | Pamc_Props.v | none (closed under the global context) |
| C51 | partial | `agents_come_from_path` | Pamc_Props.v | none (closed under the global context) |
| C51 | partial | `disabled_agent_never_runs` | Pamc_Props.v | none (closed under the global context) |
| C51 | partial | `disable_of_running_refused` | Pamc_Props.v | none (closed under the global context) |
| C51 | partial | `load_runs_first_found` | Pamc_Props.v | none (closed under the global context) |
| C51 | partial | `converse_exchanges` | Pamc_Props.v | none (closed under the global context) |
| C51 | partial | `select_means_named` | Pamc_Props.v | none (closed under the global context) |
| C51 | partial | `converse_outcomes` | Pamc_Props.v | none (closed under the global context) |
| C51 | partial | `any_answer_is_safe_refuted` | Pamc_Props.v | none (closed under the global context) |
| C51 | partial | `list_agents_outcome` | Pamc_Props.v | none (closed under the global context) |
| C51 | partial | `agents_can_be_listed_refuted` | Pamc_Props.v | none (closed under the global context) |
| C51 | partial | `low_descriptors_closed` | Pamc_Props.v | none (closed under the global context) |
| C51 | partial | `no_descriptor_leaks_refuted` | Pamc_Props.v | none (closed under the global context) |
| C52 | partial | `first_rule_decides` | Access_Props.v | none (closed under the global context) |
| C52 | partial | `decision_unique` | Access_Props.v | none (closed under the global context) |
| C52 | partial | `module_decides` | Access_Props.v | none (closed under the global context) |
| C52 | partial | `directory_order` | Access_Props.v | none (closed under the global context) |
| C52 | partial | `base_name_meaning` | Access_Props.v | none (closed under the global context) |
| C52 | partial | `origin_meaning` | Access_Props.v | none (closed under the global context) |
| C52 | partial | `access_options` | Accessopt_Props.v | none (closed under the global context) |
| C52 | partial | `access_bad_table_aborts` | Accessopt_Props.v | none (closed under the global context) |
| C52 | partial | `local_origin` | Accessopt_Props.v | none (closed under the global context) |
| C52 | partial | `device_total` | Accessopt_Props.v | none (closed under the global context) |
| C52 | partial | `last_rule_counts_refuted` | Access_Props.v | none (closed under the global context) |
| C52 | partial | `malformed_rule_denies_refuted` | Access_Props.v | none (closed under the global context) |
| C52 | partial | `permission_field_decides_refuted` | Access_Props.v | none (closed under the global context) |
| C52 | partial | `default_accessfile_same_refuted` | Access_Props.v | none (closed under the global context) |
| C52 | partial | `tables_read_or_denied_refuted` | Access_Props.v | none (closed under the global context) |
| C52 | partial | `other_rules_do_not_matter_refuted` | Access_Props.v | none (closed under the global context) |
| C52 | partial | `no_undefined_behaviour_refuted` | Access_Props.v | none (closed under the global context) |
| C53 | partial | `local_origin_word` | Accessword_Props.v | none (closed under the global context) |
| C53 | partial | `local_not_remote` | Accessword_Props.v | none (closed under the global context) |
| C53 | partial | `remote_plain_word` | Accessword_Props.v | none (closed under the global context) |
| C53 | partial | `domain_word` | Accessword_Props.v | none (closed under the global context) |
| C53 | partial | `subnet_word` | Accessword_Props.v | none (closed under the global context) |
| C53 | partial | `prefix_word` | Accessword_Props.v | none (closed under the global context) |
| C53 | partial | `mask_word` | Accessword_Props.v | none (closed under the global context) |
| C53 | partial | `address_word` | Accessword_Props.v | none (closed under the global context) |
| C53 | partial | `plain_user_word` | Accessword_Props.v | none (closed under the global context) |
| C53 | partial | `group_word` | Accessword_Props.v | none (closed under the global context) |
| C53 | partial | `netgroup_word` | Accessword_Props.v | none (closed under the global context) |
| C53 | partial | `user_at_host_word` | Accessword_Props.v | none (closed under the global context) |
| C53 | partial | `netgroup_at_host_word` | Accessword_Props.v | none (closed under the global context) |
| C53 | partial | `prefix_zero_refuted` | Accessword_Props.v | none (closed under the global context) |
| C53 | partial | `prefix_decimal_refuted` | Accessword_Props.v | none (closed under the global context) |
| C53 | partial | `user_names_distinct_refuted` | Accessword_Props.v | none (closed under the global context) |
| C53 | partial | `address_of_one_family_refuted` | Accessword_Props.v | none (closed under the global context) |
| C54 | partial | `digest_is_sha1` | Sha1_Props.v | none (closed under the global context) |
| C54 | partial | `digest_of_prefixes` | Sha1_Props.v | none (closed under the global context) |
| C54 | partial | `long_piece_refuted` | Sha1_Props.v | none (closed under the global context) |
| C55 | partial | `mac_is_hmac` | Sha1_Props.v | none (closed under the global context) |
| C55 | partial | `short_key_no_mac` | Sha1_Props.v | none (closed under the global context) |
| C56 | partial | `digest_is_md5` | Md5_Props.v | none (closed under the global context) |
| C56 | partial | `broken_on_big_endian_refuted` | Md5_Props.v | none (closed under the global context) |
| C57 | proved | `hash_is_md5crypt` | Md5crypt_Props.v | none (closed under the global context) |
| C57 | proved | `hash_verifies` | Md5crypt_Props.v | none (closed under the global context) |
| C57 | proved | `hash_form` | Md5crypt_Props.v | none (closed under the global context) |
| C57 | proved | `same_hash_same_digest` | Md5crypt_Props.v | none (closed under the global context) |
| C57 | proved | `encoding_loses_nothing` | Md5crypt_Props.v | none (closed under the global context) |
| C57 | proved | `stored_hash_accepted` | Md5crypt_Props.v | none (closed under the global context) |
| C57 | proved | `accepted_iff_digests_agree` | Md5crypt_Props.v | none (closed under the global context) |
| C58 | partial | `directory_checked` | Stampname_Props.v | none (closed under the global context) |
| C58 | partial | `missing_directory_refuted` | Stampname_Props.v | none (closed under the global context) |
| C58 | partial | `name_meaning` | Stampname_Props.v | none (closed under the global context) |
| C58 | partial | `name_only` | Stampname_Props.v | none (closed under the global context) |
| C58 | partial | `names_distinct` | Stampname_Props.v | none (closed under the global context) |
| C58 | partial | `names_distinct_refuted` | Stampname_Props.v | none (closed under the global context) |
| C58 | partial | `stays_below_directory_refuted` | Stampname_Props.v | none (closed under the global context) |
| C58 | partial | `age_window` | Stampname_Props.v | none (closed under the global context) |
| C58 | partial | `good_for_interval_only_refuted` | Stampname_Props.v | none (closed under the global context) |
| C58 | partial | `large_timeout_defined_refuted` | Stampname_Props.v | none (closed under the global context) |
| C58 | partial | `timeout_option` | Stampname_Props.v | none (closed under the global context) |
| C58 | partial | `timeout_garbage` | Stampname_Props.v | none (closed under the global context) |
| C58 | partial | `empty_timeout_ignored_refuted` | Stampname_Props.v | none (closed under the global context) |
| C58 | partial | `login_before_stamp` | Stampname_Props.v | none (closed under the global context) |
| C58 | partial | `login_after_2038_refuted` | Stampname_Props.v | none (closed under the global context) |
| C58 | partial | `own_login_needed_refuted` | Stampname_Props.v | none (closed under the global context) |
| C59 | partial | `success_needs_session` | Timestamp_Props.v | none (closed under the global context) |
| C59 | partial | `key_from_random` | Timestamp_Props.v | none (closed under the global context) |
| C59 | partial | `default_not_key` | Timestamp_Props.v | none (closed under the global context) |
| C59 | partial | `accepted_file` | Timestamp_Props.v | none (closed under the global context) |
| C59 | partial | `session_stamps` | Timestamp_Props.v | none (closed under the global context) |
| C59 | partial | `session_then_accepted` | Timestamp_Props.v | none (closed under the global context) |
| C59 | partial | `key_made_good_refuted` | Timestamp_Props.v | none (closed under the global context) |
| C59 | partial | `key_kept_refuted` | Timestamp_Props.v | none (closed under the global context) |
| C60 | partial | `check_needs_session` | Timestamp_Props.v | none (closed under the global context) |
| C60 | partial | `removed_refused` | Timestamp_Props.v | none (closed under the global context) |
| C60 | partial | `target_plain` | Timestamp_Props.v | none (closed under the global context) |
| C60 | partial | `check_agrees_refuted` | Timestamp_Props.v | none (closed under the global context) |
| C61 | partial | `misconfigured_refused` | Listfile_Props.v | none (closed under the global context) |
| C61 | partial | `list_decides` | Listfile_Props.v | none (closed under the global context) |
| C61 | partial | `unsafe_list_refused` | Listfile_Props.v | none (closed under the global context) |
| C61 | partial | `not_meant_ignored` | Listfile_Props.v | none (closed under the global context) |
| C61 | partial | `success_has_reason` | Listfile_Props.v | none (closed under the global context) |
| C61 | partial | `nothing_to_look_for` | Listfile_Props.v | none (closed under the global context) |
| C61 | partial | `missing_list_onerr` | Listfile_Props.v | none (closed under the global context) |
| C61 | partial | `chomp_entry` | Opt_Facts.v | none (closed under the global context) |
| C61 | partial | `last_item_counts_refuted` | Listfile_Props.v | none (closed under the global context) |
| C61 | partial | `order_irrelevant_refuted` | Listfile_Props.v | none (closed under the global context) |
| C61 | partial | `apply_limits_refuted` | Listfile_Props.v | none (closed under the global context) |
| C62 | partial | `condition_holds` | Succeedif_Props.v | none (closed under the global context) |
| C62 | partial | `condition_codes` | Succeedif_Props.v | none (closed under the global context) |
| C62 | partial | `unknown_user_refused` | Succeedif_Props.v | none (closed under the global context) |
| C62 | partial | `decimal_numeral` | Succeedif_Props.v | none (closed under the global context) |
| C62 | partial | `succeeds_iff_all_hold` | Succeedif_Props.v | none (closed under the global context) |
| C62 | partial | `first_failure_decides` | Succeedif_Props.v | none (closed under the global context) |
| C62 | partial | `incomplete_refused` | Succeedif_Props.v | none (closed under the global context) |
| C62 | partial | `in_means_item_refuted` | Succeedif_Props.v | none (closed under the global context) |
| C62 | partial | `any_value_refuted` | Succeedif_Props.v | none (closed under the global context) |
| C62 | partial | `decimal_numbers_refuted` | Succeedif_Props.v | none (closed under the global context) |
| C63 | partial | `command_line_test` | Securetty_Props.v | none (closed under the global context) |
| C63 | partial | `active_test` | Securetty_Props.v | none (closed under the global context) |
| C63 | partial | `others_pass` | Securetty_Props.v | none (closed under the global context) |
| C63 | partial | `root_terminals` | Securetty_Props.v | none (closed under the global context) |
| C63 | partial | `unsafe_refused` | Securetty_Props.v | none (closed under the global context) |
| C63 | partial | `no_list_passes` | Securetty_Props.v | none (closed under the global context) |
| C63 | partial | `number_means_pts_refuted` | Securetty_Props.v | none (closed under the global context) |
| C63 | partial | `console_word_needed_refuted` | Securetty_Props.v | none (closed under the global context) |
| C63 | partial | `defined_refuted` | Securetty_Props.v | none (closed under the global context) |
| C63 | partial | `nameless_refused_refuted` | Securetty_Props.v | none (closed under the global context) |
| C63 | partial | `no_list_refused_refuted` | Securetty_Props.v | none (closed under the global context) |
| C64 | partial | `wheel_decides` | Gate_Props.v | none (closed under the global context) |
| C64 | partial | `wheel_success` | Gate_Props.v | none (closed under the global context) |
| C64 | partial | `wheel_unknown` | Gate_Props.v | none (closed under the global context) |
| C64 | partial | `wheel_root_only` | Gate_Props.v | none (closed under the global context) |
| C64 | partial | `denied_group_gone_refuted` | Gate_Props.v | none (closed under the global context) |
| C65 | partial | `no_notice_passes` | Gate_Props.v | none (closed under the global context) |
| C65 | partial | `notice_refuses` | Gate_Props.v | none (closed under the global context) |
| C65 | partial | `notice_stops_users` | Gate_Props.v | none (closed under the global context) |
| C65 | partial | `root_passes_refuted` | Gate_Props.v | none (closed under the global context) |
| C65 | partial | `shells_decides` | Gate_Props.v | none (closed under the global context) |
| C65 | partial | `shells_codes` | Gate_Props.v | none (closed under the global context) |
| C66 | partial | `usertype_decides` | Usertype_Props.v | none (closed under the global context) |
| C66 | partial | `usertype_errors` | Usertype_Props.v | none (closed under the global context) |
| C66 | partial | `below_min_is_system_refuted` | Usertype_Props.v | none (closed under the global context) |
| C66 | partial | `negative_ignored_refuted` | Usertype_Props.v | none (closed under the global context) |
| C66 | partial | `faildelay_value` | Usertype_Props.v | none (closed under the global context) |
| C66 | partial | `faildelay_fits` | Usertype_Props.v | none (closed under the global context) |
| C66 | partial | `invalid_delay_ignored_refuted` | Usertype_Props.v | none (closed under the global context) |
| C67 | partial | `session_mask` | Umask_Props.v | none (closed under the global context) |
| C67 | partial | `session_mask_range` | Umask_Props.v | none (closed under the global context) |
| C67 | partial | `umask_result` | Umask_Props.v | none (closed under the global context) |
| C67 | partial | `gecos_wins` | Umask_Props.v | none (closed under the global context) |
| C67 | partial | `umask_defined` | Umask_Props.v | none (closed under the global context) |
| C67 | partial | `umask_terminates` | Umask_Props.v | none (closed under the global context) |
| C67 | partial | `bad_mask_ignored_refuted` | Umask_Props.v | none (closed under the global context) |
| C67 | partial | `umask_defined_refuted` | Umask_Props.v | none (closed under the global context) |
| C68 | partial | `accepted_not_recorded` | Pwhist_Props.v | none (closed under the global context) |
| C68 | partial | `recorded_refused` | Pwhist_Props.v | none (closed under the global context) |
| C68 | partial | `unreadable_refuses_refuted` | Pwhist_Props.v | none (closed under the global context) |
| C69 | partial | `save_frame` | Pwhist_Props.v | none (closed under the global context) |
| C69 | partial | `save_updates` | Pwhist_Props.v | none (closed under the global context) |
| C69 | partial | `history_bounded` | Pwhist_Props.v | none (closed under the global context) |
| C69 | partial | `saved_refused` | Pwhist_Props.v | none (closed under the global context) |
| C69 | partial | `success_saves_refuted` | Pwhist_Props.v | none (closed under the global context) |
| C69 | partial | `saved_once_refuted` | Pwhist_Props.v | none (closed under the global context) |
| C69 | partial | `other_records_kept_refuted` | Pwhist_Props.v | none (closed under the global context) |
| C69 | partial | `comma_refused_refuted` | Pwhist_Props.v | none (closed under the global context) |
| C70 | partial | `new_password_unused` | Pwhist_Props.v | none (closed under the global context) |
| C70 | partial | `chauthtok_bounds` | Pwhist_Props.v | none (closed under the global context) |
| C70 | partial | `options_meaning` | Pwhist_Props.v | none (closed under the global context) |
| C70 | partial | `large_remember_refuted` | Pwhist_Props.v | none (closed under the global context) |
| C70 | partial | `conf_remember_refuted` | Pwhist_Props.v | none (closed under the global context) |
| C71 | proved | `expand_meaning` | Pamenv_Props.v | none (closed under the global context) |
| C72 | partial | `line_meaning` | Pamenv_Props.v | none (closed under the global context) |
| C72 | partial | `line_asks_one` | Pamenv_Props.v | none (closed under the global context) |
| C72 | partial | `conf_line_meaning` | Pamenv_Props.v | none (closed under the global context) |
| C72 | partial | `conf_changes_only_named` | Pamenv_Props.v | none (closed under the global context) |
| C72 | partial | `conf_last_line_counts` | Pamenv_Props.v | none (closed under the global context) |
| C72 | partial | `conf_of_settings_succeeds` | Pamenv_Props.v | none (closed under the global context) |
| C72 | partial | `malformed_last_line_aborts` | Pamenv_Props.v | none (closed under the global context) |
| C72 | partial | `trailing_blank_tolerated_refuted` | Pamenv_Props.v | none (closed under the global context) |
| C72 | partial | `trailing_comment_tolerated_refuted` | Pamenv_Props.v | none (closed under the global context) |
| C72 | partial | `malformed_line_fails_refuted` | Pamenv_Props.v | none (closed under the global context) |
| C72 | partial | `documented_remotehost_refuted` | Pamenv_Props.v | none (closed under the global context) |
| C72 | partial | `order_of_arguments_refuted` | Pamenv_Props.v | none (closed under the global context) |
| C72 | partial | `bare_line_unsets_refuted` | Pamenv_Props.v | none (closed under the global context) |
| C73 | partial | `env_line_asks_one` | Pamenv_Props.v | none (closed under the global context) |
| C73 | partial | `env_line_meaning` | Pamenv_Props.v | none (closed under the global context) |
| C73 | partial | `env_changes_only_asked` | Pamenv_Props.v | none (closed under the global context) |
| C73 | partial | `env_last_line_counts` | Pamenv_Props.v | none (closed under the global context) |
| C73 | partial | `quoted_hash_kept_refuted` | Pamenv_Props.v | none (closed under the global context) |
| C74 | proved | `env_options_meaning` | Pamenv_Props.v | none (closed under the global context) |
| C74 | proved | `files_opened` | Pamenv_Props.v | none (closed under the global context) |
| C74 | proved | `module_changes_only_named` | Pamenv_Props.v | none (closed under the global context) |
| C74 | proved | `missing_conf_skips_all` | Pamenv_Props.v | none (closed under the global context) |
| C75 | proved | `salt_meaning` | Unixhash_Props.v | none (closed under the global context) |
| C75 | proved | `new_hash_accepted` | Unixhash_Props.v | none (closed under the global context) |
| C75 | proved | `new_hash_method` | Unixhash_Props.v | none (closed under the global context) |
| C75 | proved | `traditional_hash` | Unixhash_Props.v | none (closed under the global context) |
| C76 | partial | `md5_hashing` | Unixsave_Props.v | none (closed under the global context) |
| C76 | partial | `old_password_saved` | Unixsave_Props.v | none (closed under the global context) |
| C76 | partial | `history_saved` | Unixsave_Props.v | none (closed under the global context) |
| C76 | partial | `history_begins` | Unixsave_Props.v | none (closed under the global context) |
| C76 | partial | `bare_name_replaced` | Unixsave_Props.v | none (closed under the global context) |
| C76 | partial | `failed_write_reported_refuted` | Unixsave_Props.v | none (closed under the global context) |
| C76 | partial | `unfinished_file_refuted` | Unixsave_Props.v | none (closed under the global context) |
| C76 | partial | `remember_none_refuted` | Unixsave_Props.v | none (closed under the global context) |
| C76 | partial | `short_row_refuted` | Unixsave_Props.v | none (closed under the global context) |
| C76 | partial | `temporary_file_stays_refuted` | Unixsave_Props.v | none (closed under the global context) |
| C77 | proved | `history_check` | Unixsave_Props.v | none (closed under the global context) |
| C77 | proved | `saved_is_refused` | Unixsave_Props.v | none (closed under the global context) |
| C77 | proved | `last_passwords_refused` | Unixsave_Props.v | none (closed under the global context) |
| C78 | partial | `passwd_updated` | Unixfile_Props.v | none (closed under the global context) |
| C78 | partial | `passwd_updates` | Unixfile_Props.v | none (closed under the global context) |
| C78 | partial | `shadow_updated` | Unixfile_Props.v | none (closed under the global context) |
| C78 | partial | `shadow_updates` | Unixfile_Props.v | none (closed under the global context) |
| C78 | partial | `entries_afterwards` | Unixfile_Props.v | none (closed under the global context) |
| C78 | partial | `comments_kept_refuted` | Unixfile_Props.v | none (closed under the global context) |
| C79 | proved | `update_only_if` | Unixset_Props.v | none (closed under the global context) |
| C80 | partial | `preliminary_check` | Unixset_Props.v | none (closed under the global context) |
| C80 | partial | `change_only_if` | Unixset_Props.v | none (closed under the global context) |
| C80 | partial | `new_password_works` | Unixset_Props.v | none (closed under the global context) |
| C80 | partial | `failure_changes_nothing_refuted` | Unixset_Props.v | none (closed under the global context) |
| C80 | partial | `old_password_needed_refuted` | Unixset_Props.v | none (closed under the global context) |
| C81 | partial | `userdb_options` | Userdb_Props.v | none (closed under the global context) |
| C81 | partial | `userdb_authentication` | Userdb_Props.v | none (closed under the global context) |
| C81 | partial | `own_entry_refuted` | Userdb_Props.v | none (closed under the global context) |
| C81 | partial | `unknown_method_refused_refuted` | Userdb_Props.v | none (closed under the global context) |
| C81 | partial | `whole_data_compared_refuted` | Userdb_Props.v | none (closed under the global context) |
| C82 | partial | `userdb_account` | Userdb_Props.v | none (closed under the global context) |
| C82 | partial | `account_defined_refuted` | Userdb_Props.v | none (closed under the global context) |
| C83 | partial | `limits_line` | Limits_Props.v | none (closed under the global context) |
| C83 | partial | `limits_lines` | Limits_Props.v | none (closed under the global context) |
| C83 | partial | `applies_unique` | Limits_Props.v | none (closed under the global context) |
| C83 | partial | `scanned_unique` | Limits_Props.v | none (closed under the global context) |
| C83 | partial | `wildcard_dash_refuted` | Limits_Props.v | none (closed under the global context) |
| C83 | partial | `percent_gid_dash_refuted` | Limits_Props.v | none (closed under the global context) |
| C83 | partial | `individual_over_group_refuted` | Limits_Props.v | none (closed under the global context) |
| C83 | partial | `odd_numbers_refuted` | Limits_Props.v | none (closed under the global context) |
| C84 | partial | `limits_soft` | Limits_Props.v | none (closed under the global context) |
| C84 | partial | `limits_hard_partial` | Limits_Props.v | none (closed under the global context) |
| C84 | partial | `read_value_iff` | Limits_Props.v | none (closed under the global context) |
| C84 | partial | `priority_last` | Limits_Props.v | none (closed under the global context) |
| C84 | partial | `nonew_last` | Limits_Props.v | none (closed under the global context) |
| C84 | partial | `dash_sets_both_refuted` | Limits_Props.v | none (closed under the global context) |
| C84 | partial | `priority_precedence_refuted` | Limits_Props.v | none (closed under the global context) |
| C84 | partial | `odd_numbers_refuted` | Limits_Props.v | none (closed under the global context) |
| C85 | partial | `limits_logins` | Limits_Props.v | none (closed under the global context) |
| C85 | partial | `logins_refused` | Limits_Props.v | none (closed under the global context) |
| C85 | partial | `numsys_last` | Limits_Props.v | none (closed under the global context) |
| C85 | partial | `group_last` | Limits_Props.v | none (closed under the global context) |
| C85 | partial | `numsys_of_winner_refuted` | Limits_Props.v | none (closed under the global context) |
| C85 | partial | `group_of_winner_refuted` | Limits_Props.v | none (closed under the global context) |
| C85 | partial | `percent_is_syslogins_refuted` | Limits_Props.v | none (closed under the global context) |
| C85 | partial | `long_name_refuted` | Limits_Props.v | none (closed under the global context) |
| C86 | partial | `limits_session_partial` | Limits_Props.v | none (closed under the global context) |
| C86 | partial | `limits_not_opened` | Limits_Props.v | none (closed under the global context) |
| C86 | partial | `limits_options` | Limits_Props.v | none (closed under the global context) |
| C86 | partial | `scanned_unique` | Limits_Props.v | none (closed under the global context) |
| C87 | proved | `kernel_limits_read` | Limits_Kernel.v | none (closed under the global context) |
| C87 | proved | `kernel_fields_spec` | Limits_Kernel.v | none (closed under the global context) |
| C88 | partial | `faillock_line` | Flconf_Props.v | none (closed under the global context) |
| C88 | partial | `faillock_settings` | Flconf_Props.v | none (closed under the global context) |
| C88 | partial | `faillock_settings_errors` | Flconf_Props.v | none (closed under the global context) |
| C88 | partial | `faillock_settings_range` | Flconf_Props.v | none (closed under the global context) |
| C88 | partial | `faillock_large_number_refuted` | Flconf_Props.v | none (closed under the global context) |
| C88 | partial | `faillock_malformed_number_refuted` | Flconf_Props.v | none (closed under the global context) |
| C88 | partial | `faillock_flag_value_refuted` | Flconf_Props.v | none (closed under the global context) |
| C89 | partial | `motd_lists` | Motd_Props.v | none (closed under the global context) |
| C89 | partial | `motd_shown` | Motd_Props.v | none (closed under the global context) |
| C89 | partial | `motd_nothing` | Motd_Props.v | none (closed under the global context) |
| C89 | partial | `motd_empty_directory_refuted` | Motd_Props.v | none (closed under the global context) |
| C89 | partial | `motd_hidden_refuted` | Motd_Props.v | none (closed under the global context) |
| C90 | proved | `echo_arguments` | Echo_Props.v | none (closed under the global context) |
| C90 | proved | `echo_file` | Echo_Props.v | none (closed under the global context) |
| C90 | proved | `echo_defined` | Echo_Props.v | none (closed under the global context) |
| C90 | proved | `echo_empty_file_refuted` | Echo_Props.v | none (closed under the global context) |
| C91 | partial | `issue_prompt` | Issue_Props.v | none (closed under the global context) |
| C91 | partial | `issue_set` | Issue_Props.v | none (closed under the global context) |
| C91 | partial | `issue_once` | Issue_Props.v | none (closed under the global context) |
| C92 | partial | `ttyaudit_status` | Ttyaudit_Props.v | none (closed under the global context) |
| C92 | partial | `ttyaudit_restored` | Ttyaudit_Props.v | none (closed under the global context) |
| C92 | partial | `ttyaudit_untouched` | Ttyaudit_Props.v | none (closed under the global context) |
| C92 | partial | `ttyaudit_large_uid_refuted` | Ttyaudit_Props.v | none (closed under the global context) |
| C93 | partial | `nsopen_walk` | Nsopen_Props.v | none (closed under the global context) |
| C93 | partial | `nsopen_static` | Nsopen_Props.v | none (closed under the global context) |
| C93 | partial | `nsopen_descriptors` | Nsopen_Props.v | none (closed under the global context) |
| C93 | partial | `nsopen_mounts` | Nsopen_Props.v | none (closed under the global context) |
| C93 | partial | `nsumount_sound` | Nsopen_Props.v | none (closed under the global context) |
| C93 | partial | `nsopen_user_link_refuted` | Nsopen_Props.v | none (closed under the global context) |
| C93 | partial | `nsopen_double_slash_refuted` | Nsopen_Props.v | none (closed under the global context) |
| C94 | partial | `ns_words` | Nsconf_Props.v | none (closed under the global context) |
| C94 | partial | `ns_variables` | Nsconf_Props.v | none (closed under the global context) |
| C94 | partial | `ns_mntopts` | Nsconf_Props.v | none (closed under the global context) |
| C94 | partial | `ns_method` | Nsconf_Props.v | none (closed under the global context) |
| C94 | partial | `ns_line` | Nsconf_Props.v | none (closed under the global context) |
| C94 | partial | `ns_files` | Nsconf_Props.v | none (closed under the global context) |
| C94 | partial | `ns_files_safe` | Nsconf_Props.v | none (closed under the global context) |
| C94 | partial | `ns_whom` | Nsconf_Props.v | none (closed under the global context) |
| C94 | partial | `ns_empty_home_refuted` | Nsconf_Props.v | none (closed under the global context) |
| C94 | partial | `ns_empty_method_refuted` | Nsconf_Props.v | none (closed under the global context) |
| C94 | partial | `ns_flag_prefix_refuted` | Nsconf_Props.v | none (closed under the global context) |
| C94 | partial | `ns_rdir_refuted` | Nsconf_Props.v | none (closed under the global context) |
| C95 | partial | `ns_instance` | Nsname_Props.v | none (closed under the global context) |
| C95 | partial | `ns_instance_parent` | Nsname_Props.v | none (closed under the global context) |
| C95 | partial | `ns_users_apart` | Nsname_Props.v | none (closed under the global context) |
| C95 | partial | `ns_safe_path` | Nsname_Props.v | none (closed under the global context) |
| C95 | partial | `ns_root_shared` | Nsname_Props.v | none (closed under the global context) |
| C95 | partial | `ns_user_data` | Nsname_Props.v | none (closed under the global context) |
| C95 | partial | `ns_contexts_apart_refuted` | Nsname_Props.v | none (closed under the global context) |
| C95 | partial | `ns_safe_path_sticky_refuted` | Nsname_Props.v | none (closed under the global context) |
| C95 | partial | `ns_ruser_refuted` | Nsname_Props.v | none (closed under the global context) |
| C96 | partial | `ns_setup_mounts` | Nssetup_Props.v | none (closed under the global context) |
| C96 | partial | `ns_setup_attributes` | Nssetup_Props.v | none (closed under the global context) |
| C96 | partial | `ns_setup_descriptors` | Nssetup_Props.v | none (closed under the global context) |
| C96 | partial | `ns_setup_cleanup` | Nssetup_Props.v | none (closed under the global context) |
| C96 | partial | `ns_session` | Nssetup_Props.v | none (closed under the global context) |
| C96 | partial | `ns_session_close` | Nssetup_Props.v | none (closed under the global context) |
| C96 | partial | `ns_unmount_only_refuted` | Nssetup_Props.v | none (closed under the global context) |
| C96 | partial | `ns_cleanup_refuted` | Nssetup_Props.v | none (closed under the global context) |
| C96 | partial | `ns_cwd_refuted` | Nssetup_Props.v | none (closed under the global context) |
| C97 | partial | `exec_options` | Exec_Props.v | none (closed under the global context) |
| C97 | partial | `exec_success` | Exec_Props.v | none (closed under the global context) |
| C97 | partial | `exec_program` | Exec_Props.v | none (closed under the global context) |
| C97 | partial | `exec_descriptors` | Exec_Props.v | none (closed under the global context) |
| C97 | partial | `exec_parent` | Exec_Props.v | none (closed under the global context) |
| C97 | partial | `exec_token` | Exec_Props.v | none (closed under the global context) |
| C97 | partial | `exec_defined` | Exec_Props.v | none (closed under the global context) |
| C97 | partial | `exec_told` | Exec_Props.v | none (closed under the global context) |
| C97 | partial | `exec_user_refuted` | Exec_Props.v | none (closed under the global context) |
| C97 | partial | `exec_leak_refuted` | Exec_Props.v | none (closed under the global context) |
| C97 | partial | `exec_crash_refuted` | Exec_Props.v | none (closed under the global context) |
| C97 | partial | `exec_whole_token_refuted` | Exec_Props.v | none (closed under the global context) |
| C98 | partial | `mkhome_safe` | Mkhome_Props.v | none (closed under the global context) |
| C98 | partial | `mkhome_kept` | Mkhome_Props.v | none (closed under the global context) |
| C98 | partial | `mkhome_copy` | Mkhome_Props.v | none (closed under the global context) |
| C98 | partial | `mkhome_modes` | Mkhome_Props.v | none (closed under the global context) |
| C98 | partial | `mkhome_parents` | Mkhome_Props.v | none (closed under the global context) |
| C98 | partial | `mkhome_defined` | Mkhome_Props.v | none (closed under the global context) |
| C98 | partial | `mkhome_helper` | Mkhome_Props.v | none (closed under the global context) |
| C98 | partial | `mkhome_options` | Mkhome_Props.v | none (closed under the global context) |
| C98 | partial | `mkhome_session` | Mkhome_Props.v | none (closed under the global context) |
| C98 | partial | `mkhome_mode_agrees` | Mkhome_Props.v | none (closed under the global context) |
| C98 | partial | `mkhome_umask_refuted` | Mkhome_Props.v | none (closed under the global context) |
| C98 | partial | `mkhome_defs_refuted` | Mkhome_Props.v | none (closed under the global context) |
| C98 | partial | `mkhome_dangling_refuted` | Mkhome_Props.v | none (closed under the global context) |
| C98 | partial | `mkhome_slash_refuted` | Mkhome_Props.v | none (closed under the global context) |
| C98 | partial | `mkhome_skipped_refuted` | Mkhome_Props.v | none (closed under the global context) |
| C98 | partial | `mkhome_retry_refuted` | Mkhome_Props.v | none (closed under the global context) |
| C98 | partial | `mkhome_numbers` | Mkhomearg_Props.v | none (closed under the global context) |
| C98 | partial | `mkhome_empty_mask_refuted` | Mkhomearg_Props.v | none (closed under the global context) |
| C99 | partial | `ftp_settings` | Ftp_Props.v | none (closed under the global context) |
| C99 | partial | `ftp_decides` | Ftp_Props.v | none (closed under the global context) |
| C99 | partial | `ftp_address` | Ftp_Props.v | none (closed under the global context) |
| C99 | partial | `ftp_defined` | Ftp_Props.v | none (closed under the global context) |
| C99 | partial | `ftp_rhost_refuted` | Ftp_Props.v | none (closed under the global context) |
| C99 | partial | `ftp_guest_refuted` | Ftp_Props.v | none (closed under the global context) |
| C99 | partial | `ftp_crash_refuted` | Ftp_Props.v | none (closed under the global context) |
| C99 | partial | `ftp_failed_user_refuted` | Ftp_Props.v | none (closed under the global context) |
