(** Model of the settings of pam_faillock: modules/pam_faillock/faillock_config.c and args_parse of pam_faillock.c. Logging is left out. *)
From Coq Require Import String Ascii List Arith ZArith Bool.
From Verif Require Import Base Num_Model Str_Model Opt_Model.
Import ListNotations.
Local Open Scope Z_scope.

(** FAILLOCK_ACTION_PREAUTH, FAILLOCK_ACTION_AUTHSUCC, FAILLOCK_ACTION_AUTHFAIL, modules/pam_faillock/pam_faillock.c:60-62. *)
Inductive action := Preauth | Authsucc | Authfail.
(** The part of struct options that is set here, modules/pam_faillock/faillock_config.h:61-82. The flags (51-57) are fields of their own. *)
Record settings := mkS {
  s_action : action; s_deny : Z; s_interval : Z; s_unlock : Z; s_root_unlock : Z; s_dir : option cstr; s_admin : option cstr;
  s_deny_root : bool; s_audit : bool; s_silent : bool; s_nolog : bool; s_local : bool; s_nodelay : bool; s_fatal : bool }.
(** MAX_TIME_INTERVAL, modules/pam_faillock/faillock_config.h:59. *)
Definition max_interval : Z := 604800.
(** memset and the defaults, modules/pam_faillock/pam_faillock.c:76-81. *)
Definition defaults : settings := mkS Preauth 3 900 600 (max_interval + 1) None None false false false false false false false.

(** sscanf(value, "%u", &temp) and, with 2^16, "%hu": glibc converts like strtoul and keeps the low bits; None when nothing is converted.
    Simplification: the C standard leaves values out of range undefined, this is what glibc does; modules/pam_faillock/faillock_config.c:186-192. *)
Definition scan_unsigned (size : Z) (value : cstr) : option Z :=
  match strtoul 10 value with (v, Some _) => Some (v mod size) | (_, None) => None end.
(** A time, modules/pam_faillock/faillock_config.c:191-198. *)
Definition scan_time (value : cstr) : option Z :=
  match scan_unsigned 4294967296 value with Some t => if max_interval <? t then None else Some t | None => None end.
(** A time or never, modules/pam_faillock/faillock_config.c:203-213 and 218-228. *)
Definition scan_unlock (value : cstr) : option Z := if streq value (lit "never") then Some 0 else scan_time value.

(** set_conf_opt, modules/pam_faillock/faillock_config.c:165-259; [mem v] says whether strdup of [v] succeeds. *)
Definition set_conf_opt (mem : cstr -> bool) (o : settings) (name value : cstr) : settings :=
  let '(mkS ac dn iv ul ru di ad dr au si nl lo nd fa) := o in
  if streq name (lit "dir") then
    match value with
    | c :: _ => if Ascii.eqb c "/"%char then mkS ac dn iv ul ru (if mem value then Some value else None) ad dr au si nl lo nd (fa || negb (mem value)) else o
    | [] => o
    end
  else if streq name (lit "deny") then
    match scan_unsigned 65536 value with Some v => mkS ac v iv ul ru di ad dr au si nl lo nd fa | None => o end
  else if streq name (lit "fail_interval") then
    match scan_time value with Some v => mkS ac dn v ul ru di ad dr au si nl lo nd fa | None => o end
  else if streq name (lit "unlock_time") then
    match scan_unlock value with Some v => mkS ac dn iv v ru di ad dr au si nl lo nd fa | None => o end
  else if streq name (lit "root_unlock_time") then
    match scan_unlock value with Some v => mkS ac dn iv ul v di ad dr au si nl lo nd fa | None => o end
  else if streq name (lit "admin_group") then
    mkS ac dn iv ul ru di (if mem value then Some value else None) dr au si nl lo nd (fa || negb (mem value))
  else if streq name (lit "even_deny_root") then mkS ac dn iv ul ru di ad true au si nl lo nd fa
  else if streq name (lit "audit") then mkS ac dn iv ul ru di ad dr true si nl lo nd fa
  else if streq name (lit "silent") then mkS ac dn iv ul ru di ad dr au true nl lo nd fa
  else if streq name (lit "no_log_info") then mkS ac dn iv ul ru di ad dr au si true lo nd fa
  else if streq name (lit "local_users_only") then mkS ac dn iv ul ru di ad dr au si nl true nd fa
  else if streq name (lit "nodelay") then mkS ac dn iv ul ru di ad dr au si nl lo true fa
  else o.

(** Skipping to the value, modules/pam_faillock/faillock_config.c:146-156: white space and one equals sign; [eq] says that it was seen. *)
Fixpoint to_value (eq : bool) (p : cstr) : cstr :=
  match p with
  | [] => []
  | c :: q =>
      if negb (Ascii.eqb c "="%char) || eq then if isspace c then to_value eq q else p
      else to_value true q
  end.
(** A line as a C string, modules/pam_faillock/faillock_config.c:113-156: the name and the value; None when there is none. *)
Definition parse_line (l : cstr) : option (cstr * cstr) :=
  let body := match split_at "#"%char l with Some (a, _) => a | None => l end in
  match skip_spaces (rtrim body) with
  | [] => None
  | p =>
      let '(name, r) := span (fun c => negb (isspace c || Ascii.eqb c "="%char)) p in
      match r with
      | [] => Some (name, [])
      | c :: q => Some (name, to_value (Ascii.eqb c "="%char) q)
      end
  end.

(** The loop over the lines, modules/pam_faillock/faillock_config.c:99-160. A line that getline gave with a newline but whose C string
    does not end in one has a NUL inside: an error (106-111). None is PAM_SERVICE_ERR. Simplification: reading does not fail. *)
Fixpoint read_lines (mem : cstr -> bool) (ls : list (list ascii)) (o : settings) : option settings :=
  match ls with
  | [] => Some o
  | l :: ls =>
      match cut l with
      | [] => read_lines mem ls o
      | s => if negb (Ascii.eqb (last s NUL) c_nl) && Ascii.eqb (last l NUL) c_nl then None
             else read_lines mem ls (match parse_line s with Some (n, v) => set_conf_opt mem o n v | None => o end)
      end
  end.

(** fopen: the contents or errno == ENOENT, modules/pam_faillock/faillock_config.c:84-98. *)
Inductive fopened := FText (text : list ascii) | FNone | FError.
(** read_config_file, modules/pam_faillock/faillock_config.c:78-163, without VENDOR_FAILLOCK_DEFAULT_CONF. FAILLOCK_DEFAULT_CONF is
    /etc/security/faillock.conf (line 51). None is PAM_SERVICE_ERR. *)
Definition read_config_file (mem : cstr -> bool) (fopen : cstr -> fopened) (o : settings) (cfgfile : option cstr) : option settings :=
  match fopen (match cfgfile with Some f => f | None => lit "/etc/security/faillock.conf" end) with
  | FText text => read_lines mem (lines_of text) o
  | FNone => match cfgfile with None => Some o | Some _ => None end
  | FError => None
  end.

(** The last conf= and its index, modules/pam_faillock/pam_faillock.c:83-90. *)
Fixpoint last_conf (i : nat) (args : list cstr) (found : option (nat * cstr)) : option (nat * cstr) :=
  match args with
  | [] => found
  | a :: args => last_conf (S i) args (match skip_prefix (lit "conf=") a with Some f => Some (i, f) | None => found end)
  end.
(** The name and the value of an argument, modules/pam_faillock/pam_faillock.c:119-126. *)
Definition parse_arg (a : cstr) : cstr * cstr := match split_at "="%char a with Some (n, v) => (n, v) | None => (a, []) end.
(** The loop over the arguments, modules/pam_faillock/pam_faillock.c:98-131; [skip] is config_arg_index. Simplification: strdup of the
    argument (113-117) does not fail. *)
Fixpoint take_args (mem : cstr -> bool) (skip : option nat) (i : nat) (args : list cstr) (o : settings) : settings :=
  match args with
  | [] => o
  | a :: args =>
      let act x := mkS x (s_deny o) (s_interval o) (s_unlock o) (s_root_unlock o) (s_dir o) (s_admin o) (s_deny_root o) (s_audit o) (s_silent o) (s_nolog o) (s_local o) (s_nodelay o) (s_fatal o) in
      take_args mem skip (S i) args
        (if match skip with Some k => Nat.eqb i k | None => false end then o
         else if streq a (lit "preauth") then act Preauth
         else if streq a (lit "authfail") then act Authfail
         else if streq a (lit "authsucc") then act Authsucc
         else let '(n, v) := parse_arg a in set_conf_opt mem o n v)
  end.
(** args_parse, modules/pam_faillock/pam_faillock.c:66-141; [silent] is flags & PAM_SILENT. *)
Definition args_parse (mem : cstr -> bool) (fopen : cstr -> fopened) (silent : bool) (args : list cstr) : Z * settings :=
  let c := last_conf 0 args None in
  match read_config_file mem fopen defaults (option_map snd c) with
  | None => (PAM_SERVICE_ERR, defaults)
  | Some o =>
      let '(mkS ac dn iv ul ru di ad dr au si nl lo nd fa) := take_args mem (option_map fst c) 0 args o in
      let o := mkS ac dn iv ul (if ru =? max_interval + 1 then ul else ru) di ad dr au (si || silent) nl lo nd fa in
      (if fa then PAM_BUF_ERR else PAM_SUCCESS, o)
  end.
(** get_tally_dir, modules/pam_faillock/faillock_config.c:261-264; FAILLOCK_DEFAULT_TALLYDIR is /var/run/faillock. *)
Definition tally_dir (o : settings) : cstr := match s_dir o with Some d => d | None => lit "/var/run/faillock" end.
