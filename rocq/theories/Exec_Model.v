(** Model of modules/pam_exec/pam_exec.c: the parent, and the child up to execve. Logging (pam_syslog, and with it debug and quiet_log) is left out,
    and so is what the child writes to the log file. *)
From Coq Require Import String Ascii List Arith ZArith Bool.
From Verif Require Import Base Str_Model Opt_Model Item_Model Umask_Model Modutil_Model.
Import ListNotations.

(** ** The options *)
(** use_stdout, logfile, call_setuid, quiet and expose_authtok, modules/pam_exec/pam_exec.c:93-100. *)
Record opts := mkOpts { o_out : bool; o_log : option cstr; o_setuid : bool; o_quiet : bool; o_expose : bool }.
(** The loop over the arguments, modules/pam_exec/pam_exec.c:116-144: the options and the arguments from argv[optargc] on, or None where the call is ignored. *)
Fixpoint parse (type : cstr) (args : list cstr) (o : opts) : option (opts * list cstr) :=
  match args with
  | [] => Some (o, [])
  | a :: rest =>
      if match a with c :: _ => Ascii.eqb c "/"%char | [] => false end then Some (o, args)
      else if caseeq a (lit "debug") then parse type rest o
      else if caseeq a (lit "stdout") then parse type rest (mkOpts true (o_log o) (o_setuid o) (o_quiet o) (o_expose o))
      else match skip_iprefix (lit "log=") a with
      | Some f => parse type rest (mkOpts (o_out o) (Some f) (o_setuid o) (o_quiet o) (o_expose o))
      | None =>
      match skip_iprefix (lit "type=") a with
      | Some ty => if streq type ty then parse type rest o else None
      | None =>
          if caseeq a (lit "seteuid") then parse type rest (mkOpts (o_out o) (o_log o) true (o_quiet o) (o_expose o))
          else if caseeq a (lit "quiet") then parse type rest (mkOpts (o_out o) (o_log o) (o_setuid o) true (o_expose o))
          else if caseeq a (lit "quiet_log") then parse type rest o
          else if caseeq a (lit "expose_authtok") then parse type rest (mkOpts (o_out o) (o_log o) (o_setuid o) (o_quiet o) true)
          else Some (o, args)
      end end
  end.

(** ** What is outside *)
(** How a process ends, by the macros of modules/pam_exec/pam_exec.c:290-321; only [Exited 0] is the status 0. *)
Inductive status := Exited (code : Z) | Signaled (sig : Z) (core : bool) | Unknown (raw : Z).
(** pam_get_user, pam_get_item, pam_prompt (its result and answer), the two pipes, fdopen, sigaction, fork, the write to the pipe and waitpid in
    the parent; what is written to the pipe of stdout, and how the program ends. In the child: dup by descriptor, dup2 by target, open of the log
    file, the limits and failures inside pam_modutil_sanitize_helper_fds, setuid, setsid, calloc, pam_getenvlist, realloc, pam_asprintf by item,
    execve, and errno after a failure; the user ids of the process and whether it may set them. True is success.
    [x_log] numbers the open log file, as [Before] numbers what was open before. Simplifications: the password is at most 511 bytes, which write
    puts into the empty pipe at once; interrupted calls of waitpid are left out; the program ends. *)
Record env := mkEnv {
  x_user : Z * cstr; x_item : Z -> Z * option cstr; x_prompt : Z * option cstr;
  x_limit : nat; x_pipe : bool -> bool; x_fdopen : bool; x_sigaction : bool; x_fork : bool; x_write : bool; x_wait : bool;
  x_output : list ascii; x_status : status;
  x_dup : nat -> bool; x_dup2 : nat -> bool; x_open : bool; x_log : nat; x_fsys : fsys; x_range : bool; x_rlim : option Z;
  x_setuid : bool; x_setsid : bool; x_calloc : bool; x_envlist : option (list cstr); x_realloc : bool; x_asprintf : cstr -> bool;
  x_exec : bool; x_errno : Z; x_ruid : Z; x_euid : Z; x_priv : bool }.

(** ** The child *)
(** What execve is called with, and the descriptors and user ids at that moment. *)
Record image := mkImage { im_path : cstr; im_argv : list cstr; im_env : list cstr; im_fds : fds; im_ruid : Z; im_euid : Z }.
(** How the child goes on: it becomes the program; it ends; or it reads through the null pointer. *)
Inductive chout := Ran (im : image) | Quits (code : Z) | Crashes.

(** move_fd_to_non_stdio, modules/pam_exec/pam_exec.c:73-87; None: dup fails, and the child ends. *)
Fixpoint move_fd (fuel : nat) (E : env) (fd : nat) (t : fds) : res (option (nat * fds)) :=
  if (fd <? 3)%nat then
    match fuel with
    | O => OutOfFuel
    | S n =>
        match table t fd with
        | None => Ok None
        | Some o => if negb (x_dup E fd) then Ok None
                    else match new_fd (x_limit E) o t with None => Ok None | Some (fd, t) => move_fd n E fd t end
        end
    end
  else Ok (Some (fd, t)).

(** Opening the log file as stdout, modules/pam_exec/pam_exec.c:383-401. *)
Definition open_log (E : env) (t : fds) : bool * fds :=
  let t := set_fd 1 None t in
  match (if x_open E then new_fd (x_limit E) (Before (x_log E)) t else None) with
  | None => (false, t)
  | Some (i, t) => if (i =? 1)%nat then (true, t) else let '(ok, t) := dup2 (negb (x_dup2 E 1)) i 1 t in if ok then (true, set_fd i None t) else (false, t)
  end.

(** env_items, modules/pam_exec/pam_exec.c:58-68. *)
Definition env_items : list (Z * cstr) :=
  [(I_SERVICE, lit "PAM_SERVICE"); (I_USER, lit "PAM_USER"); (I_TTY, lit "PAM_TTY"); (I_RHOST, lit "PAM_RHOST"); (I_RUSER, lit "PAM_RUSER")].
(** The loop over env_items and PAM_TYPE, modules/pam_exec/pam_exec.c:460-481: the strings added to the environment, None where memory runs out. *)
Fixpoint add_items (E : env) (type : cstr) (items : list (Z * cstr)) : option (list cstr) :=
  match items with
  | [] => if x_asprintf E (lit "PAM_TYPE") then Some [(lit "PAM_TYPE=" ++ type)%list] else None
  | (i, name) :: items =>
      match x_item E i with
      | (r, Some v) =>
          if negb (r =? PAM_SUCCESS)%Z then add_items E type items
          else if negb (x_asprintf E name) then None
          else option_map (cons (name ++ lit "=" ++ v)%list) (add_items E type items)
      | (_, None) => add_items E type items
      end
  end.

(** A pipe: the end the child keeps is moved away from the standard descriptors and the other end closed, modules/pam_exec/pam_exec.c:342-352. *)
Definition take_end (E : env) (p : option (nat * nat)) (t : fds) : res (option (nat * fds)) :=
  match p with
  | None => Ok (Some (0%nat, t))
  | Some (mine, other) => bind (move_fd 4 E mine t) (fun m => Ok match m with Some (fd, t) => Some (fd, set_fd other None t) | None => None end)
  end.

(** The child, modules/pam_exec/pam_exec.c:325-492: [tok] and [out] are the pipes of the password and of stdout, the end the child keeps first. setuid
    of the effective user id changes the real one only for a privileged process. 12 is ENOMEM. *)
Definition child (E : env) (type : cstr) (o : opts) (rest : list cstr) (tok out : option (nat * nat)) (t : fds) : res chout :=
  let stop := Ok (Quits (x_errno E)) in
  bind (take_end E tok t) (fun m => match m with None => stop | Some (r, t) =>
  bind (take_end E out t) (fun m => match m with None => stop | Some (w, t) =>
  let '(ok, t) := match tok with Some _ => dup2 (negb (x_dup2 E 0)) r 0 t | None => (true, t) end in
  if negb ok then stop
  else
    let '(ok, t) := match out with
                    | Some _ => dup2 (negb (x_dup2 E 1)) w 1 t
                    | None => match o_log o with Some _ => open_log E t | None => (true, t) end
                    end in
    if negb ok then stop
    else
      let redirected := match out, o_log o with None, None => false | _, _ => true end in
      let '(ok, t) := if redirected then dup2 (negb (x_dup2 E 2)) 1 2 t else (true, t) in
      if negb ok then stop
      else
        let m0 := match tok with Some _ => MIgnore | None => MPipe end in
        let m1 := if redirected then MIgnore else MNull in
        let '(ok, t) := sanitize_fds (x_fsys E) (x_range E) (x_rlim E) m0 m1 m1 t in
        if negb ok then Ok (Quits 1)
        else if o_setuid o && negb (x_setuid E) then stop
        else if negb (x_setsid E) then stop
        else if negb (x_calloc E) then Ok (Quits 12)
        else match x_envlist E with
             | None => Ok Crashes
             | Some l =>
                 if negb (x_realloc E) then Ok (Quits 12)
                 else match add_items E type env_items with
                      | None => Ok (Quits 12)
                      | Some l' =>
                          if x_exec E then Ok (Ran (mkImage (hd [] rest) rest (l ++ l')%list t (if o_setuid o && x_priv E then x_euid E else x_ruid E) (x_euid E)))
                          else stop
                      end
             end
  end) end).

(** ** The parent *)
(** What the user is told: a line of the program's output, or how the program failed, modules/pam_exec/pam_exec.c:276, 297-299, 307-310 and 317-319. *)
Inductive said := Line (s : cstr) | Failed (prog : cstr) (how : status).
(** What a call leaves: the code, the descriptors, what became of the child, what was put into the pipe of the password, the contents of authtok,
    the answer stored as PAM_AUTHTOK, what the user was told, and whether the handler of SIGCHLD is what it was. *)
Record outcome := mkOut { r_rc : Z; r_fds : fds; r_child : option chout; r_sent : option cstr; r_buf : cstr; r_item : option cstr; r_said : list said; r_sig : bool }.

(** The status waitpid reports for the child. *)
Definition status_of (E : env) (c : chout) : status :=
  match c with Ran _ => x_status E | Quits code => Exited (code mod 256) | Crashes => Signaled 11 false end.
(** A line of output as it is shown, modules/pam_exec/pam_exec.c:273-277: up to the newline, or a NUL byte before. *)
Definition shown (l : list ascii) : cstr := fst (span (fun c => negb (Ascii.eqb c c_nl)) (cut l)).

(** PAM_MAX_RESP_SIZE - 1, libpam/include/security/_pam_types.h:248. *)
Definition MAX_TOK : nat := 511.
(** The password, modules/pam_exec/pam_exec.c:168-202: a code to return, or the contents of authtok and the answer stored; _pam_drop of the answer is left out. *)
Definition get_token (E : env) : Z + (cstr * option cstr) :=
  let '(r, v) := x_item E I_AUTHTOK in
  if negb (r =? PAM_SUCCESS)%Z then inl r
  else match v with
  | Some p => inr (firstn MAX_TOK p, None)
  | None =>
      let '(r, v) := x_prompt E in
      if negb (r =? PAM_SUCCESS)%Z then inl (if (r =? PAM_CONV_AGAIN)%Z then PAM_INCOMPLETE else r)
      else match v with Some p => inr (firstn MAX_TOK p, Some p) | None => inr ([], None) end
  end.

(** pam_overwrite_array of authtok. *)
Definition wipe (buf : cstr) : cstr := [].

(** The parent from waitpid on, modules/pam_exec/pam_exec.c:282-323. *)
Definition finish (E : env) (o : opts) (prog : cstr) (c : chout) : Z * list said :=
  if negb (x_wait E) then (PAM_SYSTEM_ERR, [])
  else match status_of E c with
       | Exited 0 => (PAM_SUCCESS, [])
       | s => (PAM_SYSTEM_ERR, if o_quiet o then [] else [Failed prog s])
       end.

(** call_exec from the check of optargc on, modules/pam_exec/pam_exec.c:230-324. *)
Definition run (E : env) (type : cstr) (o : opts) (rest : list cstr) (tok out : option (nat * nat)) (buf : cstr) (item : option cstr) (t : fds) : res outcome :=
  let early rc buf sig := Ok (mkOut rc t None None buf item [] sig) in
  match rest with
  | [] => early PAM_SERVICE_ERR (wipe buf) true
  | prog :: _ =>
      if negb (x_sigaction E) then early PAM_SYSTEM_ERR (wipe buf) true
      else if negb (x_fork E) then early PAM_SYSTEM_ERR (wipe buf) false
      else
        bind (child E type o rest tok (match out with Some (r, w) => Some (w, r) | None => None end) t) (fun c =>
        let '(sent, t) := match tok with Some (r, w) => (Some (if x_write E then buf else []), set_fd w None (set_fd r None t)) | None => (None, t) end in
        let '(lines, t) := match out with
                           | Some (r, w) => (map (fun l => Line (shown l)) (lines_of (x_output E)), set_fd r None (set_fd w None t))
                           | None => ([], t)
                           end in
        let '(rc, told) := finish E o prog c in
        Ok (mkOut rc t (Some c) sent (wipe buf) item (lines ++ told)%list true))
  end.

(** call_exec, modules/pam_exec/pam_exec.c:89-494, from the descriptors [t]. *)
Definition call_exec (E : env) (type : cstr) (args : list cstr) (t : fds) : res outcome :=
  let early rc t buf item := Ok (mkOut rc t None None buf item [] true) in
  match args with
  | [] => early PAM_SERVICE_ERR t [] None
  | _ =>
      match parse type args (mkOpts false None false false false) with
      | None => early PAM_IGNORE t [] None
      | Some (o, rest) =>
          let '(r, _) := x_user E in
          if negb (r =? PAM_SUCCESS)%Z then early (if (r =? PAM_CONV_AGAIN)%Z then PAM_INCOMPLETE else r) t [] None
          else
            let continue tok buf item t :=
              if o_out o then
                match Modutil_Model.pipe (x_limit E) (negb (x_pipe E true)) t with
                | None => early PAM_SYSTEM_ERR t (wipe buf) item
                | Some (r, w, t) => if x_fdopen E then run E type o rest tok (Some (r, w)) buf item t else early PAM_SYSTEM_ERR t (wipe buf) item
                end
              else run E type o rest tok None buf item t in
            if o_expose o && (streq type (lit "auth") || streq type (lit "password")) then
              match get_token E with
              | inl rc => early rc t [] None
              | inr (buf, item) =>
                  match Modutil_Model.pipe (x_limit E) (negb (x_pipe E false)) t with
                  | None => early PAM_SYSTEM_ERR t (wipe buf) item
                  | Some (r, w, t) => continue (Some (r, w)) buf item t
                  end
              end
            else continue None [] None t
      end
  end.

(** The entry points, modules/pam_exec/pam_exec.c:496-540. *)
Inductive service := SAuth | SCred | SPassword (prelim : bool) | SAccount | SOpen | SClose.
(** A call of one of them. *)
Definition serve (E : env) (s : service) (args : list cstr) (t : fds) : res outcome :=
  let fixed rc := Ok (mkOut rc t None None [] None [] true) in
  match s with
  | SAuth => call_exec E (lit "auth") args t
  | SCred => fixed PAM_IGNORE
  | SPassword true => fixed PAM_SUCCESS
  | SPassword false => call_exec E (lit "password") args t
  | SAccount => call_exec E (lit "account") args t
  | SOpen => call_exec E (lit "open_session") args t
  | SClose => call_exec E (lit "close_session") args t
  end.
