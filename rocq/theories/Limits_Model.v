(** pam_limits: resource limits, priority and number of logins for a session, modules/pam_limits/pam_limits.c. *)
From Coq Require Import String Ascii List Arith ZArith Bool.
From Verif Require Import Base Num_Model Str_Model Opt_Model.
From Verif Require Access_Model.
Import ListNotations.
Local Open Scope Z_scope.

(** LIMITS_DEF_USER … LIMITS_DEF_NONE, modules/pam_limits/pam_limits.c:64-70. *)
Definition DEF_USER : Z := 0.
(** A group entry, modules/pam_limits/pam_limits.c:65. *)
Definition DEF_GROUP : Z := 1.
(** A group entry counting the whole group, modules/pam_limits/pam_limits.c:66. *)
Definition DEF_ALLGROUP : Z := 2.
(** An entry counting all, modules/pam_limits/pam_limits.c:67. *)
Definition DEF_ALL : Z := 3.
(** The default entry, modules/pam_limits/pam_limits.c:68. *)
Definition DEF_DEFAULT : Z := 4.
(** From /proc/1/limits, modules/pam_limits/pam_limits.c:69. *)
Definition DEF_KERNEL : Z := 5.
(** Not set yet, modules/pam_limits/pam_limits.c:70. *)
Definition DEF_NONE : Z := 6.

(** RLIM_NLIMITS of sys/resource.h on Linux; the resources are numbered as there: RLIMIT_CPU is 0, …, RLIMIT_RTTIME is 15. *)
Definition NLIMITS : nat := 16.
(** RLIM_INFINITY of sys/resource.h, rlim_t being unsigned and of 64 bits. *)
Definition INFINITY : Z := ULONG_MAX.
(** INT_MAX of limits.h. *)
Definition INT_MAX : Z := 2147483647.
(** INT_MIN of limits.h. *)
Definition INT_MIN : Z := -2147483648.

(** struct user_limits_struct, modules/pam_limits/pam_limits.c:89-94. *)
Record lim := mkLim { l_supported : bool; l_soft_src : Z; l_hard_src : Z; l_cur : Z; l_max : Z }.
(** struct pam_limit_s, modules/pam_limits/pam_limits.c:97-108; conf_file is passed along instead, utmp_after_pam_call is not used by the code.
    The array limits[] is a function of the resource. *)
Record limits := mkPl { p_login : Z; p_login_def : Z; p_numsys : bool; p_priority : Z; p_nonew : Z; p_lims : nat -> lim; p_group : option cstr }.

(** _pam_parse, modules/pam_limits/pam_limits.c:143-171: conf=, utmp_early, set_all; debug and noaudit change only what is logged. *)
Record opts := mkOpts { o_conf : option cstr; o_early : bool; o_all : bool }.
(** One argument, modules/pam_limits/pam_limits.c:155-167. *)
Definition parse_one (o : opts) (a : cstr) : opts :=
  if streq a (lit "debug") then o
  else match skip_prefix (lit "conf=") a with
       | Some v => mkOpts (Some v) (o_early o) (o_all o)
       | None => if streq a (lit "utmp_early") then mkOpts (o_conf o) true (o_all o)
                 else if streq a (lit "noaudit") then o
                 else if streq a (lit "set_all") then mkOpts (o_conf o) (o_early o) true
                 else o
       end.
(** _pam_parse as a whole, modules/pam_limits/pam_limits.c:143-171. *)
Definition parse (args : list cstr) : opts := fold_left parse_one args (mkOpts None false false).

(** The words for the resources, in the order of their numbers, modules/pam_limits/pam_limits.c:643-688. *)
Definition resources : list cstr :=
  map lit ["cpu"; "fsize"; "data"; "stack"; "core"; "rss"; "nproc"; "nofile"; "memlock"; "as"; "locks"; "sigpending"; "msgqueue"; "nice"; "rtprio"; "rttime"]%string.
(** The number of a word in a list. *)
Fixpoint index_of (w : cstr) (ws : list cstr) : option nat :=
  match ws with
  | [] => None
  | x :: ws => if streq w x then Some O else match index_of w ws with Some n => Some (S n) | None => None end
  end.
(** limit_item: a resource, LIMIT_LOGIN, LIMIT_NUMSYSLOGINS, LIMIT_PRI or LIMIT_NONEWPRIVS, modules/pam_limits/pam_limits.c:110-114. *)
Inductive item := Res (n : nat) | Logins | Syslogins | Priority | Nonewprivs.
(** The item of a line, modules/pam_limits/pam_limits.c:643-702. *)
Definition item_of (w : cstr) : option item :=
  match index_of w resources with
  | Some n => Some (Res n)
  | None => if streq w (lit "maxlogins") then Some Logins
            else if streq w (lit "maxsyslogins") then Some Syslogins
            else if streq w (lit "priority") then Some Priority
            else if streq w (lit "nonewprivs") then Some Nonewprivs
            else None
  end.
(** flag_numsyslogins is set as soon as the item is known, modules/pam_limits/pam_limits.c:689-694. *)
Definition flag (it : item) (p : limits) : limits :=
  let set b := mkPl (p_login p) (p_login_def p) b (p_priority p) (p_nonew p) (p_lims p) (p_group p) in
  match it with Logins => set false | Syslogins => set true | _ => p end.
(** limit_type as (soft, hard); None: the line is not used, modules/pam_limits/pam_limits.c:704-714. *)
Definition type_of (it : item) (w : cstr) : option (bool * bool) :=
  if streq w (lit "soft") then Some (true, false)
  else if streq w (lit "hard") then Some (false, true)
  else if streq w (lit "-") then Some (true, true)
  else match it with Logins | Syslogins | Nonewprivs => Some (false, false) | _ => None end.
(** The value is one of the words for no limit, modules/pam_limits/pam_limits.c:730-732. *)
Definition no_limit_word (v : cstr) : bool := streq v (lit "-1") || streq v (lit "-") || streq v (lit "unlimited") || streq v (lit "infinity").
(** RLIMIT_NICE *)
Definition NICE : nat := 13.
(** RLIMIT_NOFILE *)
Definition NOFILE : nat := 7.
(** int_value and rlimit_value; None: wrong value, the line is not used, modules/pam_limits/pam_limits.c:715-762. *)
Definition value_of (it : item) (v : cstr) : option (Z * Z) :=
  let number := match strtol v with (n, Some _) => Some (clamp INT_MIN INT_MAX n, 0) | (_, None) => None end in
  match it with
  | Nonewprivs => if streq v (lit "0") then Some (0, 0) else if streq v (lit "1") then Some (1, 0) else Some (0, 0)
  | Priority => number
  | Logins | Syslogins => if no_limit_word v then Some (-1, INFINITY) else number
  | Res n =>
      if (n =? NICE)%nat then number
      else if no_limit_word v then Some (-1, INFINITY)
      else match strtoul 10 v with (x, Some _) => Some (0, x) | (_, None) => None end
  end.
(** errno after strtoul(s, &ep, 10) is ERANGE, C standard 7.24.1.8. *)
Definition strtoul_range (s : cstr) : bool := let '(_, s1) := sign (skip_spaces s) in let '(v, _, _) := digits_in 10 s1 0 0 in ULONG_MAX <? v.
(** value_from_file, modules/pam_limits/pam_limits.c:593-624, on the text of the file; None: it cannot be opened. *)
Definition value_from_file (text : option cstr) : option Z :=
  match text with
  | None => None
  | Some t => match lines_of t with
              | [] => None
              | l :: _ => match strtoul 10 (cut l) with
                          | (x, Some _) => if negb (x =? ULONG_MAX) || negb (strtoul_range (cut l)) then Some x else None
                          | (_, None) => None
                          end
              end
  end.
(** Multiplied with a unit, modules/pam_limits/pam_limits.c:775-781 and 792-798. *)
Definition times (unit x : Z) : Z := if negb (x =? INFINITY) then if INFINITY / unit <=? x then INFINITY else x * unit else x.
(** The switch on limit_item, modules/pam_limits/pam_limits.c:773-823: the final rlimit_value. [nr_open] is the text of /proc/sys/fs/nr_open. *)
Definition scale (nr_open : option cstr) (n : nat) (iv rv : Z) : Z :=
  if (n =? 0)%nat then times 60 rv
  else if existsb (Nat.eqb n) [1; 2; 3; 4; 5; 8; 9]%nat then times 1024 rv
  else if (n =? NICE)%nat then let iv := if 19 <? iv then 19 else iv in let iv := if iv <? -20 then -20 else iv in 20 - iv
  else if (n =? NOFILE)%nat then if rv =? INFINITY then match value_from_file nr_open with Some x => x | None => rv end else rv
  else rv.
(** limits[n] = l *)
Definition put_lim (n : nat) (l : lim) (p : limits) : limits :=
  mkPl (p_login p) (p_login_def p) (p_numsys p) (p_priority p) (p_nonew p) (fun m => if (m =? n)%nat then l else p_lims p m) (p_group p).
(** The limits of a resource stored, with the early returns, modules/pam_limits/pam_limits.c:829-844. *)
Definition store (src : Z) (soft hard : bool) (rv : Z) (n : nat) (p : limits) : limits :=
  let l := p_lims p n in
  if soft && (l_soft_src l <? src) then p
  else let l := if soft then mkLim (l_supported l) src (l_hard_src l) rv (l_max l) else l in
       let l := if hard then if l_hard_src l <? src then l else mkLim (l_supported l) (l_soft_src l) src (l_cur l) rv else l in
       put_lim n l p.
(** process_limit, modules/pam_limits/pam_limits.c:626-861, without what it logs. *)
Definition process_limit (nr_open : option cstr) (src : Z) (lim_type lim_item lim_value : cstr) (p : limits) : limits :=
  match item_of lim_item with
  | None => p
  | Some it =>
      let p := flag it p in
      match type_of it lim_type with
      | None => p
      | Some (soft, hard) =>
          match value_of it lim_value with
          | None => p
          | Some (iv, rv) =>
              if ((src =? DEF_ALL) || (src =? DEF_ALLGROUP)) && negb (match it with Logins => true | _ => false end) then p
              else match it with
                   | Res n => store src soft hard (scale nr_open n iv rv) n p
                   | Priority => mkPl (p_login p) (p_login_def p) (p_numsys p) iv (p_nonew p) (p_lims p) (p_group p)
                   | Nonewprivs => mkPl (p_login p) (p_login_def p) (p_numsys p) (p_priority p) iv (p_lims p) (p_group p)
                   | Logins | Syslogins => if p_login_def p <? src then p
                                           else mkPl iv src (p_numsys p) (p_priority p) (p_nonew p) (p_lims p) (p_group p)
                   end
          end
      end
  end.

(** LIMIT_RANGE_*, modules/pam_limits/pam_limits.c:72-76, with the numbers read. *)
Inductive range := RErr | RNone | ROne (m : Z) | RMin (lo : Z) | RMm (lo hi : Z).
(** The conversion of unsigned long to uid_t, 32 bits. *)
Definition to_uid (v : Z) : Z := v mod 4294967296.
(** parse_uid_range, modules/pam_limits/pam_limits.c:863-909. *)
Definition parse_uid_range (d : cstr) : range :=
  match split_at ":"%char d with
  | None => RNone
  | Some (_, pmax) =>
      let r := match d with c :: d' => if Ascii.eqb c "@"%char || Ascii.eqb c "%"%char then d' else d | [] => d end in
      let up := match strtoul 10 pmax with
                | (v, Some rest) => if negb (strtoul_range pmax) && (match rest with [] => true | _ => false end) then Some (to_uid v) else None
                | (_, None) => None
                end in
      match r with
      | c :: _ =>
          if Ascii.eqb c ":"%char then match pmax with [] => RErr | _ => match up with Some v => ROne v | None => RErr end end
          else match strtoul 10 r with
               | (v, Some (x :: _)) =>
                   if negb (strtoul_range r) && Ascii.eqb x ":"%char
                   then match pmax with [] => RMin (to_uid v) | _ => match up with Some w => RMm (to_uid v) w | None => RErr end end
                   else RErr
               | _ => RErr
               end
      | [] => RErr
      end
  end.

(** A blank or a tab, modules/pam_limits/pam_limits.c:929 and 936. *)
Definition blank (c : ascii) : bool := Ascii.eqb c " "%char || Ascii.eqb c c_tab.
(** trim, modules/pam_limits/pam_limits.c:921-939; None is NULL. *)
Definition trim (s : cstr) : option cstr :=
  match snd (span blank s) with
  | [] => None
  | s1 => Some (rev (snd (span blank (rev s1))))
  end.
(** split, modules/pam_limits/pam_limits.c:941-962 with set_if_null, 911-919: the fields there are. What strtok_r gives for the delimiters ""
    is all that is left, NULL when nothing is. *)
Definition split (line : cstr) : list cstr :=
  let d := [" "%char; c_tab] in
  match strtok d line with
  | None => []
  | Some (dom, r) =>
      match strtok d r with
      | None => [dom]
      | Some (ty, r) =>
          match strtok d r with
          | None => [dom; ty]
          | Some (it, r) => match trim r with None => [dom; ty; it] | Some v => [dom; ty; it; v] end
          end
      end
  end.

(** What the users and groups are: the functions of libpam/pam_modutil_ingroup.c (models in Modutil_Model) for the user of the session and others, and the name of
    a group, pam_modutil_getgrgid. *)
Record groups := mkGr { g_nam_nam : cstr -> cstr -> bool; g_nam_gid : cstr -> Z -> bool; g_name : Z -> option cstr }.
(** The user the limits are for: name, uid and gid. *)
Record who := mkWho { w_name : cstr; w_uid : Z; w_gid : Z }.

(** domain[0] == c *)
Definition starts (c : ascii) (d : cstr) : bool := match d with x :: _ => Ascii.eqb x c | [] => false end.
(** Whom a complete line is for, modules/pam_limits/pam_limits.c:1032-1111: not this user; a source; a source and a group for login_group; a null
    pointer is used (getgrgid finds no group). strdup is taken to succeed. *)
Inductive hit := Miss | Hit (src : Z) | HitGroup (g : cstr) | Crash.
(** The tests of a complete line, modules/pam_limits/pam_limits.c:1032-1111. *)
Definition domain_hit (g : groups) (w : who) (d : cstr) (r : range) : hit :=
  let on (b : bool) (h : hit) := if b then h else Miss in
  if streq (w_name w) d then Hit DEF_USER
  else if starts "@"%char d then
    match r with
    | RNone => on (g_nam_nam g (w_name w) (tl d)) (Hit DEF_GROUP)
    | ROne m => on (g_nam_gid g (w_name w) m) (Hit DEF_GROUP)
    | RMm lo hi => on (negb (hi <? w_gid w) && (lo <=? w_gid w)) (Hit DEF_GROUP)
    | RMin lo => on (lo <=? w_gid w) (Hit DEF_GROUP)
    | RErr => Miss
    end
  else if starts "%"%char d then
    match r with
    | RNone => if streq d (lit "%") then Hit DEF_ALL else on (g_nam_nam g (w_name w) (tl d)) (HitGroup (tl d))
    | ROne m => on (g_nam_gid g (w_name w) m) (match g_name g m with Some n => HitGroup n | None => Crash end)
    | _ => Miss
    end
  else
    match r with
    | RNone => on (streq d (lit "*")) (Hit DEF_DEFAULT)
    | ROne m => on ((w_uid w =? m) && negb (m <? w_uid w) && (m <=? w_uid w)) (Hit DEF_USER)
    | RMm lo hi => on (negb (hi <? w_uid w) && (lo <=? w_uid w)) (Hit DEF_USER)
    | RMin lo => on (lo <=? w_uid w) (Hit DEF_USER)
    | RErr => Miss
    end.
(** The tests of a line without limits, modules/pam_limits/pam_limits.c:1113-1160: it is for this user. *)
Definition exempt_hit (g : groups) (w : who) (d : cstr) (r : range) : bool :=
  if streq (w_name w) d then true
  else if starts "@"%char d then
    match r with
    | RNone => g_nam_nam g (w_name w) (tl d)
    | ROne m => g_nam_gid g (w_name w) m
    | RMm lo hi => negb (hi <? w_gid w) && negb (w_gid w <? lo)
    | RMin lo => negb (w_gid w <? lo)
    | RErr => true
    end
  else
    match r with
    | RNone => false
    | ROne m => w_uid w =? m
    | RMm lo hi => negb (hi <? w_uid w) && (lo <=? w_uid w)
    | RMin lo => lo <=? w_uid w
    | RErr => true
    end.
(** login_group = g *)
Definition put_group (n : cstr) (p : limits) : limits := mkPl (p_login p) (p_login_def p) (p_numsys p) (p_priority p) (p_nonew p) (p_lims p) (Some n).
(** A line without the white space at its start, the comment and the newline, modules/pam_limits/pam_limits.c:997-1009. *)
Definition strip (l : cstr) : cstr :=
  let l := skip_spaces l in
  let l := match split_at "#"%char l with Some (a, _) => a | None => l end in
  match split_at c_nl l with Some (a, _) => a | None => l end.
(** What a line comes to: go on with these limits, no limits for this user (return PAM_IGNORE), a null pointer used. *)
Inductive step := Go (p : limits) | Exempt | Broken.
(** The body of the loop of parse_config_file, modules/pam_limits/pam_limits.c:997-1167. *)
Definition one_line (nr_open : option cstr) (g : groups) (w : who) (l : cstr) (p : limits) : step :=
  match strip l with
  | [] => Go p
  | line =>
      match split line with
      | [] => Go p
      | d :: fs =>
          match parse_uid_range d with
          | RErr => Go p
          | r =>
              match fs with
              | [ty; it; v] =>
                  let set src p := process_limit nr_open src (map tolower ty) (map tolower it) (map tolower v) p in
                  match domain_hit g w d r with
                  | Miss => Go p
                  | Hit src => Go (set src p)
                  | HitGroup n => Go (set DEF_ALLGROUP (put_group n p))
                  | Crash => Broken
                  end
              | [ty] => if starts "-"%char (map tolower ty) then if exempt_hit g w d r then Exempt else Go p else Go p
              | _ => Go p
              end
          end
      end
  end.
(** The loop, modules/pam_limits/pam_limits.c:988-1168; getline is taken to find memory. A line with a NUL ends there for the code. *)
Fixpoint all_lines (nr_open : option cstr) (g : groups) (w : who) (ls : list cstr) (p : limits) : step :=
  match ls with
  | [] => Go p
  | l :: ls => match one_line nr_open g w (cut l) p with Go p => all_lines nr_open g w ls p | s => s end
  end.
(** fopen of a file: its text, that there is none (ENOENT), another failure. *)
Inductive file := Text (t : cstr) | Missing | Unreadable.
(** parse_config_file, modules/pam_limits/pam_limits.c:964-1172: the return value and the limits. *)
Definition parse_config_file (nr_open : option cstr) (g : groups) (w : who) (by_user : bool) (f : file) (p : limits) : res (Z * limits) :=
  match f with
  | Missing => if by_user then Ok (PAM_SERVICE_ERR, p) else Ok (PAM_SUCCESS, p)
  | Unreadable => Ok (PAM_SERVICE_ERR, p)
  | Text t => match all_lines nr_open g w (lines_of t) p with
              | Go p => Ok (PAM_SUCCESS, p)
              | Exempt => Ok (PAM_IGNORE, p)
              | Broken => UB
              end
  end.

(** struct utmp: ut_type is USER_PROCESS; the bytes of ut_user, a field of 32 bytes; ut_pid. *)
Record login := mkLogin { ut_user_process : bool; ut_user : cstr; ut_pid : Z }.
(** The loop of check_logins over the utmp entries, modules/pam_limits/pam_limits.c:353-394 (without USE_LOGIND); [alive] is false for a process that
    kill(pid, 0) reports with ESRCH. A count beyond INT_MAX, which needs as many entries, is not considered. *)
Fixpoint count_logins (in_group : cstr -> cstr -> bool) (alive : Z -> bool) (name : cstr) (limit : Z) (p : limits) (us : list login) (count : Z) : Z :=
  match us with
  | [] => count
  | u :: us =>
      let user := cut (ut_user u) in
      let skip := count_logins in_group alive name limit p us count in
      let next := if limit <? count + 1 then count + 1 else count_logins in_group alive name limit p us (count + 1) in
      if negb (ut_user_process u) then skip
      else match user with
           | [] => skip
           | _ =>
               if p_numsys p then next
               else if ((p_login_def p =? DEF_USER) || (p_login_def p =? DEF_GROUP) || (p_login_def p =? DEF_DEFAULT)) && negb (streq name user) then skip
               else if (p_login_def p =? DEF_ALLGROUP) && (match p_group p with Some g => negb (in_group user g) | None => false end) then skip
               else if negb (alive (ut_pid u)) then skip
               else next
           end
  end.
(** check_logins, modules/pam_limits/pam_limits.c:251-406: true is LOGIN_ERR. *)
Definition check_logins (in_group : cstr -> cstr -> bool) (alive : Z -> bool) (early : bool) (us : list login) (name : cstr) (limit : Z) (p : limits) : bool :=
  if limit <? 0 then false
  else if limit =? 0 then true
  else limit <? count_logins in_group alive name limit p us (if early then 0 else 1).

(** What is done to the process. *)
Inductive effect := Rlimit (n : nat) (cur max : Z) | Prio (v : Z) | Nnp.
(** The system the session is opened on: getrlimit for each resource (None: EINVAL, the resource is not known; Some None: another error), getpriority (None: an
    error), /proc/1/limits and /proc/sys/fs/nr_open, the files, what glob finds in limits.d (None: an error), results of setrlimit,
    setpriority and prctl (true: 0), utmp entries, processes, groups. *)
Record system := mkSys { y_getrlimit : nat -> option (option (Z * Z)); y_getpriority : option Z; y_proc : option cstr; y_nr_open : option cstr;
  y_file : cstr -> file; y_glob : option (list cstr); y_setrlimit : nat -> Z -> Z -> bool; y_setpriority : Z -> bool; y_prctl : bool;
  y_utmp : list login; y_alive : Z -> bool; y_groups : groups }.

(** The names in /proc/1/limits, in the order of the numbers, modules/pam_limits/pam_limits.c:409-440. *)
Definition lnames : list cstr :=
  map lit ["Max cpu time"; "Max file size"; "Max data size"; "Max stack size"; "Max core file size"; "Max resident set"; "Max processes"; "Max open files";
           "Max locked memory"; "Max address space"; "Max file locks"; "Max pending signals"; "Max msgqueue size"; "Max nice priority";
           "Max realtime priority"; "Max realtime timeout"]%string.
(** str2rlimit, modules/pam_limits/pam_limits.c:442-450; None is -1. *)
Definition str2rlimit (name : cstr) : option nat := match name with [] => None | _ => index_of name lnames end.
(** str2rlim_t, modules/pam_limits/pam_limits.c:452-461. *)
Definition str2rlim_t (v : cstr) : Z := if streq v (lit "unlimited") then INFINITY else fst (strtoul 10 v).
(** LIMITS_SKIP_WHITESPACE, modules/pam_limits/pam_limits.c:463-469: the line is cut before the spaces at its end; pos is then its last character. None: the
    line is given up (pos is 0). *)
Definition skip_back (l : cstr) : option cstr :=
  let l := rev (snd (span (Ascii.eqb " "%char) (rev l))) in
  match l with [] | [_] => None | _ => Some l end.
(** LIMITS_MARK_ITEM, modules/pam_limits/pam_limits.c:470-476: the word at the end of the line, and what is before it and the space in front of it. None: given up.
    The search starts at the character before the last one. *)
Definition mark_back (l : cstr) : option (cstr * cstr) :=
  let '(w, r) := span (fun c => negb (Ascii.eqb " "%char c)) (tl (rev l)) in
  match r with [] | [_] => None | _ :: r => Some (rev r, rev (hd NUL (rev l) :: w)) end.
(** limits[i] = the kernel's limits, modules/pam_limits/pam_limits.c:532-535. *)
Definition put_kernel (i : nat) (soft hard : cstr) (f : nat -> lim) : nat -> lim :=
  fun m => if (m =? i)%nat then mkLim (l_supported (f i)) DEF_KERNEL DEF_KERNEL (str2rlim_t soft) (str2rlim_t hard) else f m.
(** The fields of a line, from its end, modules/pam_limits/pam_limits.c:508-524; [units]: the line is as long as the heading. *)
Definition kernel_fields (units : bool) (l : cstr) : option (cstr * cstr * cstr) :=
  let after_units := if units then match skip_back l with
                                   | Some l => match mark_back l with Some (l, _) => Some l | None => None end
                                   | None => None
                                   end else Some l in
  match after_units with
  | None => None
  | Some l =>
      match skip_back l with
      | None => None
      | Some l => match mark_back l with
                  | None => None
                  | Some (l, hard) =>
                      match skip_back l with
                      | None => None
                      | Some l => match mark_back l with
                                  | None => None
                                  | Some (l, soft) => match skip_back l with None => None | Some name => Some (name, soft, hard) end
                                  end
                      end
                  end
      end
  end.
(** The loop of parse_kernel_limits, modules/pam_limits/pam_limits.c:492-536, without the debugging message. [maxlen] is 0 until the heading was seen. *)
Fixpoint kernel_lines (ls : list cstr) (maxlen : nat) (f : nat -> lim) : nat -> lim :=
  match ls with
  | [] => f
  | l :: ls =>
      let l := cut l in
      if (length l <? 2)%nat then kernel_lines ls maxlen f
      else let l := if Ascii.eqb (last_char l) c_nl then removelast l else l in
           if (maxlen =? 0)%nat && is_prefix (lit "Limit") l then kernel_lines ls (length l) f
           else match kernel_fields (length l =? maxlen)%nat l with
                | None => kernel_lines ls maxlen f
                | Some (name, soft, hard) => match str2rlimit name with
                                             | None => kernel_lines ls maxlen f
                                             | Some i => kernel_lines ls maxlen (put_kernel i soft hard f)
                                             end
                end
  end.
(** parse_kernel_limits, modules/pam_limits/pam_limits.c:478-539, on the text of /proc/1/limits; None: it cannot be opened. *)
Definition parse_kernel_limits (proc : option cstr) (f : nat -> lim) : nat -> lim :=
  match proc with None => f | Some t => kernel_lines (lines_of t) 0 f end.

(** The limits getrlimit finds, modules/pam_limits/pam_limits.c:549-561; what is not supported keeps the zeros of memset, line 1349. *)
Definition found (y : system) (n : nat) : lim :=
  match y_getrlimit y n with
  | Some (Some (c, m)) => mkLim true DEF_NONE DEF_NONE c m
  | _ => mkLim false 0 0 0 0
  end.
(** init_limits, modules/pam_limits/pam_limits.c:542-586; None: an error, which is !PAM_SUCCESS. *)
Definition init_limits (y : system) (all : bool) : option limits :=
  let f := if all then parse_kernel_limits (y_proc y) (found y) else found y in
  if existsb (fun n => match y_getrlimit y n with Some None => true | _ => false end) (seq 0 NLIMITS) then None
  else match y_getpriority y with None => None | Some v => Some (mkPl (-2) DEF_NONE false v 0 f None) end.

(** The loop of setup_limits, modules/pam_limits/pam_limits.c:1182-1201: the calls of setrlimit and whether all of them worked. *)
Fixpoint set_all (set : nat -> Z -> Z -> bool) (ns : list nat) (p : limits) : list effect * bool :=
  match ns with
  | [] => ([], true)
  | n :: ns =>
      let l := p_lims p n in
      let '(es, ok) := set_all set ns p in
      if negb (l_supported l) then (es, ok)
      else if (l_soft_src l =? DEF_NONE) && (l_hard_src l =? DEF_NONE) then (es, ok)
      else let c := if l_max l <? l_cur l then l_max l else l_cur l in
           (Rlimit n c (l_max l) :: es, set n c (l_max l) && ok)
  end.
(** setup_limits, modules/pam_limits/pam_limits.c:1174-1242: what is done, whether LIMIT_ERR and whether LOGIN_ERR is in the result. The audit message
    is left out. *)
Definition setup_limits (y : system) (early : bool) (w : who) (p : limits) : list effect * bool * bool :=
  let '(es, ok) := set_all (y_setrlimit y) (seq 0 NLIMITS) p in
  let err := negb ok || negb (y_setpriority y (p_priority p)) in
  let many := if w_uid w =? 0 then false
              else if 0 <? p_login p then check_logins (g_nam_nam (y_groups y)) (y_alive y) early (y_utmp y) (w_name w) (p_login p) p
              else p_login p =? 0 in
  let es := (es ++ [Prio (p_priority p)])%list in
  if negb (p_nonew p =? 0) then ((es ++ [Nnp])%list, err || negb (y_prctl y), many) else (es, err, many).

(** LIMITS_FILE, modules/pam_limits/pam_limits.c:136, SCONFIG_DIR being /etc/security. *)
Definition LIMITS_FILE : cstr := lit "/etc/security/limits.conf".
(** The loop over the files of limits.d, modules/pam_limits/pam_limits.c:1400-1405. *)
Fixpoint more_files (y : system) (w : who) (fs : list cstr) (p : limits) : res (Z * limits) :=
  match fs with
  | [] => Ok (PAM_SUCCESS, p)
  | f :: fs => bind (parse_config_file (y_nr_open y) (y_groups y) w false (y_file y f) p)
                 (fun '(rv, p) => if negb (rv =? PAM_SUCCESS) then Ok (rv, p) else more_files y w fs p)
  end.
(** pam_sm_open_session, modules/pam_limits/pam_limits.c:1335-1442: the result and what is done. [user] is PAM_USER with the result of
    pam_get_item, [pw] what pam_modutil_getpwnam gives for it. The files of limits.d in order are those of read_limits_dir (1252-1332), which is the
    same as read_access_dir of pam_access (Access_Model), without a vendor directory and with enough memory. The message to the
    user is left out. *)
Definition open_session (y : system) (user : Z * option cstr) (pw : option who) (args : list cstr) : res (Z * list effect) :=
  let o := parse args in
  match user with
  | (rv, Some _) =>
      if negb (rv =? PAM_SUCCESS) then Ok (PAM_SESSION_ERR, [])
      else
        match pw with
        | None => Ok (PAM_USER_UNKNOWN, [])
        | Some w =>
            match init_limits y (o_all o) with
            | None => Ok (PAM_ABORT, [])
            | Some p =>
                let by_user := match o_conf o with Some _ => true | None => false end in
                let conf := match o_conf o with Some f => f | None => LIMITS_FILE end in
                bind (parse_config_file (y_nr_open y) (y_groups y) w by_user (y_file y conf) p)
                  (fun '(rv, p) =>
                     if rv =? PAM_IGNORE then Ok (PAM_SUCCESS, [])
                     else bind (if negb (rv =? PAM_SUCCESS) || by_user then Ok (rv, p)
                                else more_files y w (Access_Model.sort_files (match y_glob y with Some l => l | None => [] end)) p)
                            (fun '(rv, p) =>
                               if rv =? PAM_IGNORE then Ok (PAM_SUCCESS, [])
                               else if negb (rv =? PAM_SUCCESS) then Ok (rv, [])
                               else let '(es, err, many) := setup_limits y (o_early o) w p in
                                    if err || many then Ok (PAM_PERM_DENIED, es) else Ok (PAM_SUCCESS, es)))
            end
        end
  | _ => Ok (PAM_SESSION_ERR, [])
  end.
