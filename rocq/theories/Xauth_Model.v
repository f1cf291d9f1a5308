(** Model of pam_xauth: modules/pam_xauth/pam_xauth.c. Logging is left out, and so is SELinux (WITH_SELINUX, lines 615-647). *)
From Coq Require Import String Ascii List Arith ZArith Bool.
From Verif Require Import Base Num_Model Str_Model Opt_Model.
Import ListNotations.
Local Open Scope Z_scope.

(** The fields used of a passwd entry, modules/pam_xauth/pam_xauth.c:437-447. *)
Record pw := mkPw { p_name : cstr; p_uid : Z; p_gid : Z; p_dir : cstr }.
(** A program run: its path, its arguments, its standard input, and the uid and gid it gets, modules/pam_xauth/pam_xauth.c:93-94. *)
Record command := mkCommand { c_path : cstr; c_args : list cstr; c_input : option cstr; c_uid : Z; c_gid : Z }.
(** What a program run brings, modules/pam_xauth/pam_xauth.c:106-225: whether the two pipes (106, 110), sigaction (119) and fork (129) succeed, the
    pieces read from it (195-219), and whether there is memory for each (201). The child between fork and execv (139-186) is outside: when it cannot drop
    privileges or start the program, it writes nothing. *)
Record run := mkRun { k_pipes : bool; k_sig : bool; k_fork : bool; k_pieces : list (list ascii); k_mem : nat -> bool }.
(** The output kept, modules/pam_xauth/pam_xauth.c:191-220: None when memory fails. *)
Fixpoint gather (mem : nat -> bool) (n : nat) (pieces : list (list ascii)) : option (list ascii) :=
  match pieces with
  | [] => Some []
  | p :: ps => if mem n then option_map (fun r => p ++ r)%list (gather mem (S n) ps) else None
  end.
(** run_coprocess, modules/pam_xauth/pam_xauth.c:93-226: whether it returns 0, the output (empty for a null pointer), whether the program was started,
    and whether SIGCHLD keeps the default action instead of what it had. *)
Definition run_coprocess (R : run) : bool * cstr * bool * bool :=
  if negb (k_pipes R) then (false, [], false, false)
  else if negb (k_sig R) then (false, [], false, false)
  else if negb (k_fork R) then (false, [], false, true)
  else match gather (k_mem R) 0 (k_pieces R) with
  | None => (false, [], true, false)
  | Some out => (true, Str_Model.cut out, true, false)
  end.

(** Opening an access list, modules/pam_xauth/pam_xauth.c:269-294: not there (ENOENT), too long a name, any other error, or the contents. *)
Inductive aclfile := AclMissing | AclLong | AclError | AclText (t : list ascii).
(** Around it, modules/pam_xauth/pam_xauth.c:258-280: memory for the name, privileges dropped and regained. [l_file uid] is what the
    user with that uid finds. *)
Record aclio := mkAclio { l_path : bool; l_drop : bool; l_regain : bool; l_file : Z -> cstr -> aclfile }.

(** Answers from outside: access(2) of a program (411); the environment (423, 508, 699); the name of the user (432); getuid and getgid, geteuid; passwd entries
    (437, 447, 250); fnmatch (299); the access lists, export first; gethostname (551); memory by line (509, 514, 557, 601, 656, 685, 702); dropping and
    regaining privileges (611, 649); the six characters mkstemp chooses (636); pam_set_data (663); the programs run: 0 and 1 for the first and second
    reading (532, 580), 2 for the writing (727). *)
Record env := mkEnv {
  x_access : cstr -> bool; x_display : option cstr; x_xauthority : option cstr; x_local : option cstr;
  x_user : option cstr; x_ruid : Z; x_euid : Z; x_rgid : Z; x_byuid : Z -> option pw; x_byname : cstr -> option pw;
  x_fnmatch : cstr -> cstr -> bool; x_export : aclio; x_import : aclio; x_host : option cstr; x_mem : Z -> bool;
  x_drop : bool; x_regain : bool; x_mkstemp : option cstr; x_data : bool; x_run : nat -> command -> run
}.
(** What is done to the outside, modules/pam_xauth/pam_xauth.c:119, 181, 636, 663-708, 738 and 793. *)
Inductive effect :=
| Ran (c : command) | Ignored (* SIGCHLD has lost its action *)
| Made (path : cstr) (uid gid : Z) | Unlinked (path : cstr) (uid : Z) | Kept (path : cstr) (* data for the end of the session *)
| PamEnv (v : cstr) | ProcEnv (v : cstr) | Unset (* XAUTHORITY taken from the environment *).

(** One line of an access list, modules/pam_xauth/pam_xauth.c:298: up to a carriage return, a newline or a zero byte. *)
Definition acl_pattern (l : list ascii) : cstr := fst (span (fun c => negb (Ascii.eqb c (chr 13) || Ascii.eqb c c_nl)) (Str_Model.cut l)).
(** check_acl, modules/pam_xauth/pam_xauth.c:237-354. *)
Definition check_acl (E : env) (K : aclio) (sense this_user other_user : cstr) (noent_code : Z) : Z :=
  match x_byname E this_user with
  | None => PAM_SESSION_ERR
  | Some p =>
      if negb (l_path K) then PAM_SESSION_ERR
      else if negb (l_drop K) then PAM_SESSION_ERR
      else if negb (l_regain K) then PAM_SESSION_ERR
      else match l_file K (p_uid p) (p_dir p ++ lit "/.xauth/" ++ sense)%list with
      | AclText t => if existsb (fun l => x_fnmatch E (acl_pattern l) other_user) (lines_of t) then PAM_SUCCESS else PAM_PERM_DENIED
      | AclMissing => noent_code
      | AclLong => PAM_SESSION_ERR
      | AclError => PAM_PERM_DENIED
      end
  end.

(** The options, modules/pam_xauth/pam_xauth.c:363-367: the program, systemuser, targetuser. *)
Record opts := mkOpts { o_xauth : option cstr; o_system : Z; o_target : Z }.
(** The value of targetuser= and systemuser=, modules/pam_xauth/pam_xauth.c:383-391 and 394-402, as a uid_t. *)
Definition uid_value (v : cstr) (old : Z) : Z := match strtol v with (n, Some []) => n mod 2 ^ 32 | _ => old end.
(** One argument, modules/pam_xauth/pam_xauth.c:374-405. *)
Definition parse_arg (o : opts) (a : cstr) : opts :=
  if streq a (lit "debug") then o
  else match skip_prefix (lit "xauthpath=") a with Some v => mkOpts (Some v) (o_system o) (o_target o) | None =>
       match skip_prefix (lit "targetuser=") a with Some v => mkOpts (o_xauth o) (o_system o) (uid_value v (o_target o)) | None =>
       match skip_prefix (lit "systemuser=") a with Some v => mkOpts (o_xauth o) (uid_value v (o_system o)) (o_target o) | None => o end end end.
(** The arguments, modules/pam_xauth/pam_xauth.c:367 and 371-406. *)
Definition parse_args (args : list cstr) : opts := fold_left parse_arg args (mkOpts None 499 0).
(** xauthpaths, modules/pam_xauth/pam_xauth.c:77-84, without PAM_PATH_XAUTH. *)
Definition xauthpaths : list cstr := [lit "/usr/X11R6/bin/xauth"; lit "/usr/bin/xauth"; lit "/usr/bin/X11/xauth"].
(** The program, modules/pam_xauth/pam_xauth.c:408-420. *)
Definition find_xauth (E : env) (o : opts) : option cstr := match o_xauth o with Some x => Some x | None => find (x_access E) xauthpaths end.

(** A program run with its effects, modules/pam_xauth/pam_xauth.c:532, 580 and 727. *)
Definition perform (E : env) (n : nat) (c : command) : bool * cstr * list effect :=
  let '(ok, out, started, ignored) := run_coprocess (x_run E n c) in
  (ok, out, (if started then [Ran c] else []) ++ (if ignored then [Ignored] else []))%list.
(** The reading of the cookie, modules/pam_xauth/pam_xauth.c:532-590: None when the first program cannot be run. *)
Definition read_cookie (E : env) (xauth cookiefile display : cstr) : option cstr * list effect :=
  let nlist d := mkCommand xauth [xauth; lit "-f"; cookiefile; lit "nlist"; d] None (x_ruid E) (x_rgid E) in
  let '(ok, out, w1) := perform E 0 (nlist display) in
  if negb ok then (None, w1)
  else match out with
  | _ :: _ => (Some out, w1)
  | [] =>
      if is_prefix (lit "localhost:") display || is_prefix (lit "localhost/unix:") display then
        match x_host E with
        | None => (Some [], w1)
        | Some h =>
            if x_mem E 557 then
              let '(_, out, w2) := perform E 1 (nlist (h ++ lit "/unix" ++ snd (span (fun c => negb (Ascii.eqb c ":"%char)) display))%list) in
              (Some out, w1 ++ w2)%list
            else (Some [], w1)
        end
      else (Some [], w1)
  end.
(** The new file and the variables, modules/pam_xauth/pam_xauth.c:599-733. *)
Definition write_cookie (E : env) (xauth display cookie : cstr) (tpwd : pw) : Z * list effect :=
  if negb (x_mem E 601) then (PAM_SESSION_ERR, [])
  else if negb (x_drop E) then (PAM_SESSION_ERR, [])
  else
    let made := match x_mkstemp E with Some six => Some (p_dir tpwd ++ lit "/.xauth" ++ six)%list | None => None end in
    let w1 := match made with Some path => [Made path (p_uid tpwd) (p_gid tpwd)] | None => [] end in
    if negb (x_regain E) then (PAM_SESSION_ERR, w1)
    else match made with
    | None => (PAM_SESSION_ERR, w1)
    | Some path =>
        if negb (x_mem E 656) then (PAM_SESSION_ERR, w1)
        else if negb (x_data E) then (PAM_SESSION_ERR, w1 ++ [Unlinked path (x_euid E)])%list
        else
          let var := (lit "XAUTHORITY=" ++ path)%list in
          let w2 := (w1 ++ [Kept path; PamEnv var; ProcEnv var])%list in
          if negb (x_mem E 685) then (PAM_SESSION_ERR, w2)
          else
            let w3 := (w2 ++ [PamEnv (lit "DISPLAY=" ++ display)%list])%list in
            if match x_local E with Some _ => negb (x_mem E 702) | None => false end then (PAM_SESSION_ERR, w3)
            else
              let w4 := match x_local E with Some v => [PamEnv (lit "XAUTHLOCALHOSTNAME=" ++ v)%list] | None => [] end in
              let '(_, _, w5) := perform E 2 (mkCommand xauth [xauth; lit "-f"; path; lit "nmerge"; lit "-"] (Some cookie) (p_uid tpwd) (p_gid tpwd)) in
              (PAM_SUCCESS, w3 ++ w4 ++ w5)%list
    end.
(** Everything between the test of DISPLAY and the label cleanup, modules/pam_xauth/pam_xauth.c:431-734. Failures of pam_putenv are only logged and left
    out (simplification). *)
Definition forward (E : env) (o : opts) (xauth display : cstr) : Z * list effect :=
  match x_user E with
  | None => (PAM_SESSION_ERR, [])
  | Some user =>
    match x_byuid E (x_ruid E) with
    | None => (PAM_SESSION_ERR, [])
    | Some rpwd =>
      match x_byname E user with
      | None => (PAM_SESSION_ERR, [])
      | Some tpwd =>
          if negb (p_uid tpwd =? 0) && negb (p_uid tpwd =? o_target o) && (p_uid tpwd <=? o_system o) then (PAM_SESSION_ERR, [])
          else
            let noent := if negb (x_ruid E =? 0) || (p_uid tpwd =? 0) then PAM_SUCCESS else PAM_PERM_DENIED in
            if negb (streq (p_name rpwd) (p_name tpwd)) && negb (check_acl E (x_export E) (lit "export") (p_name rpwd) user noent =? PAM_SUCCESS) then (PAM_SESSION_ERR, [])
            else if negb (streq (p_name rpwd) (p_name tpwd)) && negb (check_acl E (x_import E) (lit "import") user (p_name rpwd) PAM_SUCCESS =? PAM_SUCCESS) then (PAM_SESSION_ERR, [])
            else if negb (x_mem E (match x_xauthority E with Some _ => 509 | None => 514 end)) then (PAM_SESSION_ERR, [])
            else
              let cookiefile := match x_xauthority E with Some f => f | None => (p_dir rpwd ++ lit "/.Xauthority")%list end in
              let '(c, w1) := read_cookie E xauth cookiefile display in
              match c with
              | None => (PAM_SUCCESS, w1)
              | Some [] => (PAM_SESSION_ERR, w1)
              | Some cookie => let '(r, w2) := write_cookie E xauth display cookie tpwd in (r, w1 ++ w2)%list
              end
      end
    end
  end.
(** pam_sm_open_session, modules/pam_xauth/pam_xauth.c:356-743. *)
Definition open_session (E : env) (args : list cstr) : Z * list effect :=
  let o := parse_args args in
  match find_xauth E o with
  | None => (PAM_SUCCESS, [])
  | Some xauth =>
      match x_display E with
      | None => (PAM_SUCCESS, [])
      | Some display =>
          let '(r, w) := forward E o xauth display in
          let now := match x_xauthority E with Some _ => true | None => existsb (fun e => match e with ProcEnv _ => true | _ => false end) w end in
          (r, if negb (r =? PAM_SUCCESS) && now then w ++ [Unset] else w)%list
      end
  end.
(** pam_sm_close_session, modules/pam_xauth/pam_xauth.c:745-799; [data] is what pam_get_data finds. *)
Definition close_session (E : env) (data : option cstr) : Z * list effect :=
  match data with
  | None => (PAM_SUCCESS, [])
  | Some path =>
      match x_user E with
      | None => (PAM_SESSION_ERR, [])
      | Some user =>
          match x_byname E user with
          | None => (PAM_SESSION_ERR, [])
          | Some tpwd =>
              if negb (x_drop E) then (PAM_SESSION_ERR, [])
              else (if x_regain E then PAM_SUCCESS else PAM_SESSION_ERR, [Unlinked path (p_uid tpwd)])
          end
      end
  end.
