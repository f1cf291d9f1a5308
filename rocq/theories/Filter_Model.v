(** Model of pam_filter: options, the environment of the filter, terminals, processes and results. Messages to the system log are left out; descriptors other than the
    standard ones are left out. *)
From Coq Require Import String Ascii List ZArith Bool.
From Verif Require Import Base Str_Model.
Import ListNotations.
Local Open Scope Z_scope.

(** The options before the filter, modules/pam_filter/pam_filter.c:35-39: bits of ctrl as booleans. *)
Record ctrl := mkC { c_debug : bool; c_run1 : bool; c_run2 : bool; c_new : bool; c_non : bool }.
(** ctrl = 0, modules/pam_filter/pam_filter.c:65. *)
Definition no_ctrl : ctrl := mkC false false false false false.
(** The loop over the options, modules/pam_filter/pam_filter.c:67-90: the bits, and the filter with its arguments if there is one. Unknown options are only logged. *)
Fixpoint options (args : list cstr) (c : ctrl) : ctrl * list cstr :=
  match args with
  | [] => (c, [])
  | a :: rest =>
      if streq (lit "debug") a then options rest (mkC true (c_run1 c) (c_run2 c) (c_new c) (c_non c))
      else if streq (lit "new_term") a then options rest (mkC (c_debug c) (c_run1 c) (c_run2 c) true (c_non c))
      else if streq (lit "non_term") a then options rest (mkC (c_debug c) (c_run1 c) (c_run2 c) (c_new c) true)
      else if streq (lit "run1") a then (mkC (c_debug c) true (c_run2 c) (c_new c) (c_non c), rest)
      else if streq (lit "run2") a then (mkC (c_debug c) (c_run1 c) true (c_new c) (c_non c), rest)
      else options rest c
  end.
(** The size of the ARGS variable, modules/pam_filter/pam_filter.c:120-124, from index [i]. *)
Fixpoint args_size (i : nat) (argv : list cstr) : nat :=
  match argv with [] => 0 | a :: t => length a + (match i with O => 0 | _ => 1 end) + args_size (S i) t end%nat.
(** Its text, modules/pam_filter/pam_filter.c:133-138. *)
Fixpoint args_text (i : nat) (argv : list cstr) : cstr :=
  match argv with [] => [] | a :: t => ((match i with O => [] | _ => [" "%char] end) ++ a ++ args_text (S i) t)%list end.

(** What wait reports: a process, and how it changed its state. *)
Inductive who := App | Filter | Other.
Inductive what := Exited (code : Z) | Killed | Stopped.
(** Answers from outside. Arguments: memory for the vector (109), ARGS (126), SERVICE (150), USER (163), TYPE (173); PAM_SERVICE; the user of pam_get_user (None: it failed).
    Terminal: isatty of input and of output (226), master (236), tcgetattr (247), tcsetattr (269), socketpair (288), fork (296).
    Child: setsid (323), grantpt (331), unlockpt (338), ptsname (345), open (354), tcsetattr (366), dup2 for the three descriptors (381-383), fcntl (396-398).
    Parent: second fork (423), and what wait reports (467, 506): a list; at its end wait does not return. Filter: dup2 (430-432), fcntl (441-443).
    ttyname of input (556), in the process and in the child when its input is the slave; memory for PAM_TTY (561). *)
Record env := mkEnv {
  e_mem : nat -> bool; e_service : option cstr; e_user : option cstr;
  e_tty0 : bool; e_tty1 : bool; e_master : bool; e_getattr : bool; e_raw : bool; e_socket : bool; e_fork : bool;
  e_setsid : bool; e_grant : bool; e_unlock : bool; e_ptsname : bool; e_slave : bool; e_mode : bool; e_dup : nat -> bool; e_keep : nat -> bool;
  e_fork2 : bool; e_waits : list (who * what); e_fdup : nat -> bool; e_fkeep : nat -> bool;
  e_ttyname : option cstr; e_newname : option cstr; e_settty : bool
}.

(** The result of process_args, modules/pam_filter/pam_filter.c:92-197: None for -1; the name of the filter and its environment. *)
Definition process_args (E : env) (args : list cstr) (type : cstr) : option (ctrl * option cstr * list cstr) :=
  let (c, argv) := options args no_ctrl in
  match argv with
  | [] => Some (c, None, [])
  | name :: _ =>
      if negb (e_mem E 0) then None
      else if negb (e_mem E 1) then None
      else match e_service E with
      | None => None
      | Some service =>
          if negb (e_mem E 2) then None
          else if negb (e_mem E 3) then None
          else if negb (e_mem E 4) then None
          else Some (c, Some name, [(lit "ARGS=" ++ args_text 0 argv)%list; (lit "SERVICE=" ++ service)%list;
                                    (lit "USER=" ++ match e_user E with Some u => u | None => lit "<unknown>" end)%list; (lit "TYPE=" ++ type)%list])
      end
  end.

(** What is done: the user's terminal is made raw or has its mode back; tokens are cleared; the filter is run with an environment; a report of wait; the connection to the application is closed;
    the process ends. In the child: the slave has the mode of the terminal; descriptor [n] is the slave or socket. *)
Inductive eff := Raw | Restored | Cleared | Ran (name : cstr) (env : list cstr) | FilterFailed | Waited (w : who * what) | Closed | Quit (status : Z) | SlaveMode | Redirected (n : nat).
(** The application's process after fork, modules/pam_filter/pam_filter.c:311-408. *)
Definition child (E : env) (aterminal : bool) : Z * list eff :=
  let stdio (pre : list eff) : Z * list eff :=
    if negb (e_dup E 0) then (PAM_ABORT, pre)
    else if negb (e_dup E 1) then (PAM_ABORT, pre ++ [Redirected 0])%list
    else if negb (e_dup E 2) then (PAM_ABORT, pre ++ [Redirected 0; Redirected 1])%list
    else (if e_keep E 0 && e_keep E 1 && e_keep E 2 then PAM_SUCCESS else PAM_ABORT, pre ++ [Redirected 0; Redirected 1; Redirected 2])%list in
  if aterminal then
    if negb (e_setsid E) then (PAM_ABORT, [])
    else if negb (e_grant E) then (PAM_ABORT, [])
    else if negb (e_unlock E) then (PAM_ABORT, [])
    else if negb (e_ptsname E) then (PAM_ABORT, [])
    else if negb (e_slave E) then (PAM_ABORT, [])
    else if negb (e_mode E) then (PAM_ABORT, [])
    else stdio [SlaveMode]
  else stdio [].
(** The filter's process, modules/pam_filter/pam_filter.c:428-459: the filter is run if its descriptors are there. *)
Definition filter (E : env) (name : cstr) (vars : list cstr) : eff :=
  if e_fdup E 0 && e_fdup E 1 && e_fdup E 2 && e_fkeep E 0 && e_fkeep E 1 && e_fkeep E 2 then Ran name vars else FilterFailed.
(** The second loop, modules/pam_filter/pam_filter.c:502-533, and what follows (535-546). [a], [f]: the application, the filter has not ended. No [Quit]: wait has not returned. *)
Definition quit (aterminal : bool) (status : Z) : list eff := ((if aterminal then [Restored] else []) ++ [Quit status])%list.
Fixpoint wait2 (aterminal a f : bool) (status : Z) (ws : list (who * what)) : list eff :=
  if a || f then
    match ws with
    | [] => []
    | w :: ws =>
        Waited w ::
        match w with
        | (App, s) =>
            if a then match s with Exited c => wait2 aterminal false f c ws | Killed => wait2 aterminal false f (-1) ws | Stopped => wait2 aterminal a f status ws end
            else quit aterminal (-1)
        | (Filter, s) =>
            if f then match s with Stopped => wait2 aterminal a f status ws | _ => wait2 aterminal a false status ws end
            else quit aterminal (-1)
        | (Other, _) => quit aterminal (-1)
        end
    end
  else quit aterminal status.
(** The first loop, modules/pam_filter/pam_filter.c:463-495, while both run; then the connection is closed (498). *)
Fixpoint wait1 (aterminal : bool) (ws : list (who * what)) : list eff :=
  match ws with
  | [] => []
  | w :: ws =>
      Waited w ::
      match w with
      | (App, Exited c) => Closed :: wait2 aterminal false true c ws
      | (App, Killed) => Closed :: wait2 aterminal false true (-1) ws
      | (Filter, Exited _) | (Filter, Killed) => Closed :: wait2 aterminal true false (-1) ws
      | (App, Stopped) | (Filter, Stopped) => wait1 aterminal ws
      | (Other, _) => Closed :: wait2 aterminal false false (-1) ws
      end
  end.
(** The first process after fork, modules/pam_filter/pam_filter.c:410-546: tokens are cleared before the filter is forked. *)
Definition parent (E : env) (aterminal : bool) (name : cstr) (vars : list cstr) : list eff :=
  (Cleared ::
   (if e_fork2 E then filter E name vars :: wait1 aterminal (e_waits E)
    else Closed :: wait2 aterminal true false (-1) (e_waits E)))%list.
(** What set_filter leads to: the same process goes on with a result, or two do: the child with a result, the parent never returns. *)
Inductive outcome := One (r : Z) (before : list eff) | Two (r : Z) (before in_child in_parent : list eff).
(** set_filter, modules/pam_filter/pam_filter.c:211-548. *)
Definition set_filter (E : env) (name : option cstr) (vars : list cstr) : outcome :=
  match name with
  | Some (c :: n) =>
      if negb (Ascii.eqb c c_slash) then One PAM_ABORT []
      else if e_tty0 E && e_tty1 E then
        if negb (e_master E) then One PAM_AUTH_ERR []
        else if negb (e_getattr E) then One PAM_ABORT []
        else if negb (e_raw E) then One PAM_ABORT []
        else if negb (e_fork E) then One PAM_AUTH_ERR [Raw; Restored]
        else let (r, fx) := child E true in Two r [Raw] fx (parent E true (c :: n) vars)
      else
        if negb (e_socket E) then One PAM_ABORT []
        else if negb (e_fork E) then One PAM_AUTH_ERR []
        else let (r, fx) := child E false in Two r [] fx (parent E false (c :: n) vars)
  | _ => One PAM_ABORT []
  end.
(** set_the_terminal, modules/pam_filter/pam_filter.c:550-567: PAM_TTY is only set if it is not there. *)
Definition set_the_terminal (E : env) (ttyname : option cstr) (tty : option cstr) : Z * option cstr :=
  match tty with
  | Some _ => (PAM_SUCCESS, tty)
  | None => match ttyname with None => (PAM_ABORT, None) | Some t => if e_settty E then (PAM_SUCCESS, Some t) else (PAM_ABORT, None) end
  end.
(** The result of a call: the result and PAM_TTY in the process that goes on; effects before a fork, in the child and in the parent. *)
Record result := mkR { r_code : Z; r_tty : option cstr; r_before : list eff; r_child : list eff; r_parent : option (list eff) }.
(** need_a_filter, modules/pam_filter/pam_filter.c:569-615; [run] says which of run1 and run2 apply. *)
Definition need_a_filter (E : env) (args : list cstr) (type : cstr) (run : bool * bool) (tty : option cstr) : result :=
  match process_args E args type with
  | None => mkR PAM_AUTHINFO_UNAVAIL tty [] [] None
  | Some (c, name, vars) =>
      let (r, tty) := if negb (c_non c) && negb (c_new c) then set_the_terminal E (e_ttyname E) tty else (PAM_SUCCESS, tty) in
      let later (r : Z) (ttyname tty : option cstr) := if (r =? PAM_SUCCESS) && negb (c_non c) && c_new c then set_the_terminal E ttyname tty else (r, tty) in
      if (r =? PAM_SUCCESS) && ((c_run1 c && fst run) || (c_run2 c && snd run)) then
        match set_filter E name vars with
        | One r fx => let (r, tty) := later r (e_ttyname E) tty in mkR r tty fx [] None
        | Two r fx in_child in_parent => let (r, tty) := later r (e_newname E) tty in mkR r tty fx in_child (Some in_parent)
        end
      else let (r, tty) := later r (e_ttyname E) tty in mkR r tty [] [] None
  end.
(** The six functions, modules/pam_filter/pam_filter.c:625-681. *)
Inductive call := Authenticate | Setcred | Account | Open | Close | Chauthtok (prelim update : bool).
Definition pam_sm (E : env) (f : call) (args : list cstr) (tty : option cstr) : result :=
  match f with
  | Authenticate => need_a_filter E args (lit "authenticate") (true, false) tty
  | Setcred => need_a_filter E args (lit "setcred") (false, true) tty
  | Account => need_a_filter E args (lit "setcred") (true, true) tty
  | Open => need_a_filter E args (lit "open_session") (true, false) tty
  | Close => need_a_filter E args (lit "close_session") (false, true) tty
  | Chauthtok prelim update =>
      if prelim then need_a_filter E args (lit "chauthtok") (true, false) tty
      else if update then need_a_filter E args (lit "chauthtok") (false, true) tty
      else mkR PAM_TRY_AGAIN tty [] [] None
  end.
