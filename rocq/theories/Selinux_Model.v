(** Model of pam_selinux: modules/pam_selinux/pam_selinux.c, built with getseuser and setkeycreatecon. Logging, the option debug and the texts of messages are left out. *)
From Coq Require Import String Ascii List Arith ZArith Bool.
From Verif Require Import Base Num_Model Str_Model Opt_Model.
Import ListNotations.
Local Open Scope Z_scope.

(** context_t of libselinux, made by context_new; the range may be missing. *)
Record ctx := mkCtx { x_user : cstr; x_role : cstr; x_type : cstr; x_range : option cstr }.
(** The parts that the module sets: context_role_set, context_type_set, context_range_set. *)
Inductive part := Role | Type_ | Range.
(** context_str of libselinux. *)
Definition context_str (x : ctx) : cstr :=
  (x_user x ++ ":"%char :: x_role x ++ ":"%char :: x_type x ++ match x_range x with None => [] | Some l => ":"%char :: l end)%list.
(** The answers to the questions of one round, None if there is none (query_response, modules/pam_selinux/pam_selinux.c:142-161): another role, role, level. *)
Record round := mkRound { r_other : option cstr; r_role : option cstr; r_level : option cstr }.
(** Results of getfilecon (546) and setfilecon (438). *)
Inductive label := Label (c : cstr) | Absent | Unreadable.
Inductive stored := Stored | Gone | Refused.
(** Answers from outside: SELinux on (693), enforcing (555), MLS (168), PAM_USER (461), pw_name (466), PAM_SERVICE (472), getseuser (476), the contexts of a user and level
    (480; NULL or an error is the empty list), calloc (705), strdup (239, 265, 339, 489), pam_set_data (727), context_new (186, 290), get_default_type (192, 297),
    setting a part (198), the context of the process (213, 318), security_check_context (238, 347), "contains" (248, 357), pam_getenv (293), getexeccon (512; None is an error),
    PAM_TTY (521), ttyname (526-530), memory for the path (536), getfilecon (546), the class chr_file (558), security_compute_relabel (568), setfilecon (438), setexeccon (425),
    setkeycreatecon (646), the rounds of answers (175). *)
Record env := mkEnv {
  e_on : bool; e_enforce : bool; e_mls : bool; e_user : option cstr; e_pwname : cstr -> option cstr; e_service : option cstr;
  e_seuser : cstr -> cstr -> option (cstr * cstr); e_contexts : cstr -> cstr -> list cstr; e_calloc : bool; e_dup : cstr -> bool; e_data : Z;
  e_new : cstr -> option ctx; e_deftype : cstr -> option cstr; e_set : part -> option cstr -> bool; e_con : option cstr; e_valid : cstr -> bool;
  e_contains : cstr -> cstr -> bool; e_getenv : cstr -> option cstr; e_getexec : option (option cstr); e_tty : option cstr; e_ttyname : nat -> option cstr;
  e_path : bool; e_getfile : cstr -> label; e_class : bool; e_relabel : cstr -> cstr -> option cstr; e_setfile : cstr -> option cstr -> stored;
  e_setexec : option cstr -> bool; e_setkey : option cstr -> bool; e_rounds : list round
}.
(** What is done to the outside: contexts given to setfilecon, setexeccon and setkeycreatecon, and whether they were taken; audit messages; messages to the user. *)
Inductive effect :=
| SetFile (path : cstr) (c : option cstr) (done : bool) | SetExec (c : option cstr) (done : bool) | SetKey (c : option cstr) (done : bool)
| Audit (success : bool) (default : cstr) (selected : option cstr) | Told.

(** strdup. *)
Definition dup (E : env) (s : cstr) : option cstr := if e_dup E s then Some s else None.
(** The role of an answer or variable, modules/pam_selinux/pam_selinux.c:190-205, 293-306: None if there is no default type, Some None if it cannot be set. *)
Definition set_role (E : env) (x : ctx) (want : option cstr) : option (option ctx) :=
  match want with
  | None | Some [] => Some (Some x)
  | Some r =>
      match e_deftype E r with
      | None => None
      | Some t => if negb (e_set E Role (Some r)) then Some None else if negb (e_set E Type_ (Some t)) then Some None
                  else Some (Some (mkCtx (x_user x) r t (x_range x)))
      end
  end.
(** context_range_set; NULL takes the range away. *)
Definition set_range (E : env) (x : ctx) (l : option cstr) : option ctx :=
  if e_set E Range l then Some (mkCtx (x_user x) (x_role x) (x_type x) l) else None.
(** The range of the process, modules/pam_selinux/pam_selinux.c:213-220, 318-326: None if it has no context. *)
Definition current_range (E : env) : option (option cstr) :=
  match e_con E with None => None | Some c => match e_new E c with None => None | Some x => Some (x_range x) end end.
(** The level of a round, modules/pam_selinux/pam_selinux.c:207-232. *)
Definition answer_level (E : env) (current : bool) (x : ctx) (answer : option cstr) : option ctx :=
  if e_mls E then
    if current then match current_range E with None => None | Some l => set_range E x l end
    else match answer with Some (c :: l) => set_range E x (Some (c :: l)) | _ => Some x end
  else Some x.
(** The loop of config_context, modules/pam_selinux/pam_selinux.c:175-276: None if it is still asking after all rounds, Some None if it returns NULL. *)
Fixpoint ask (E : env) (def : cstr) (current : bool) (rs : list round) : option (option cstr) * list effect :=
  match rs with
  | [] => (None, [])
  | r :: rs =>
      if match r_other r with Some (c :: _) => Ascii.eqb c "y" || Ascii.eqb c "Y" | _ => false end then
        let fail := (Some None, [Audit false def None]) in
        match e_new E def with
        | None => fail
        | Some x =>
            match set_role E x (r_role r) with
            | None => let '(o, fx) := ask E def current rs in (o, Told :: fx)
            | Some None => fail
            | Some (Some x) =>
                match answer_level E current x (r_level r) with
                | None => fail
                | Some x =>
                    let s := context_str x in
                    if e_valid E s then
                      if negb (e_dup E s) then fail
                      else if e_mls E && negb (e_contains E def s) then (Some None, [Audit false def (Some s)])
                      else (Some (Some s), [])
                    else let '(o, fx) := ask E def current rs in (o, Audit false def (Some s) :: Told :: fx)
                end
            end
        end
      else (Some (dup E def), [])
  end.
(** config_context, modules/pam_selinux/pam_selinux.c:163-277. *)
Definition config_context (E : env) (def : cstr) (current : bool) : option (option cstr) * list effect :=
  let '(o, fx) := ask E def current (e_rounds E) in (o, Told :: fx).
(** context_from_env, modules/pam_selinux/pam_selinux.c:279-375. *)
Definition context_from_env (E : env) (def : cstr) (env_params current : bool) : option cstr * list effect :=
  let fail s := (None, [Audit false def s]) in
  match e_new E def with
  | None => fail None
  | Some x =>
      match set_role E x (if env_params then e_getenv E (lit "SELINUX_ROLE_REQUESTED") else None) with
      | None | Some None => fail None
      | Some (Some x) =>
          match (if e_mls E then
                   let current := current || match e_getenv E (lit "SELINUX_USE_CURRENT_RANGE") with Some ("1"%char :: _) => true | _ => false end in
                   match (if current then current_range E else Some (e_getenv E (lit "SELINUX_LEVEL_REQUESTED"))) with
                   | None => None
                   | Some (Some (c :: l)) => set_range E x (Some (c :: l))
                   | Some _ => Some x
                   end
                 else Some x) with
          | None => fail None
          | Some x =>
              let s := context_str x in
              if negb (e_dup E s) then fail None
              else if negb (e_valid E s) then fail (Some s)
              else if e_mls E && negb (e_contains E def s) then fail (Some s)
              else (Some s, [])
          end
      end
  end.

(** module_data_t, modules/pam_selinux/pam_selinux.c:378-385; only kept with an exec_context and a default_user_context. *)
Record data := mkData { d_exec : cstr; d_prev_exec : option cstr; d_default : cstr; d_tty_con : option cstr; d_prev_tty : option cstr; d_tty : option cstr }.
(** set_exec_context, modules/pam_selinux/pam_selinux.c:422-430: true is 0. *)
Definition set_exec_context (E : env) (c : option cstr) : bool * list effect := (e_setexec E c, [SetExec c (e_setexec E c)]).
(** set_file_context, modules/pam_selinux/pam_selinux.c:432-443: true is 0. *)
Definition set_file_context (E : env) (c file : option cstr) : bool * list effect :=
  match file with
  | None => (true, [])
  | Some f => match e_setfile E f c with Stored => (true, [SetFile f c true]) | Gone => (true, [SetFile f c false]) | Refused => (false, [SetFile f c false]) end
  end.
(** An error that counts only if SELinux is enforcing, modules/pam_selinux/pam_selinux.c:555, 608, 660, 719. *)
Definition enforced (E : env) : Z := if e_enforce E then PAM_SESSION_ERR else PAM_SUCCESS.
(** compute_exec_context, modules/pam_selinux/pam_selinux.c:445-516: inr is the result of an error; inl the default context with the selected one, or None without a
    context; None if the user is still being asked. The previous context is read in [create_context]. *)
Definition compute_exec_context (E : env) (select current env_params : bool) : option (option (cstr * cstr) + Z) * list effect :=
  match e_user E with
  | None => (Some (inr PAM_USER_UNKNOWN), [])
  | Some user =>
      let user := match e_pwname E user with Some n => n | None => user end in
      match e_service E with
      | None => (Some (inr PAM_SESSION_ERR), [])
      | Some service =>
          match match e_seuser E user service with Some (se, level) => e_contexts E se level | None => [] end with
          | [] => (Some (inl None), [Told])
          | def :: _ =>
              if negb (e_dup E def) then (Some (inr PAM_BUF_ERR), [])
              else
                let '(o, fx) :=
                  if select then config_context E def current
                  else if env_params || current then let '(c, fx) := context_from_env E def env_params current in (Some c, fx)
                  else (Some (Some def), []) in
                match o with
                | None => (None, fx)
                | Some None => (Some (inl None), (fx ++ [Told])%list)
                | Some (Some c) => (Some (inl (Some (def, c))), fx)
                end
          end
      end
  end.
(** !tty || !*tty. *)
Definition empty (t : option cstr) : bool := match t with None | Some [] => true | Some _ => false end.
(** The terminal, modules/pam_selinux/pam_selinux.c:521-533. *)
Definition terminal (E : env) : option cstr :=
  let t := e_tty E in
  if empty t || match t with Some t => streq t (lit "ssh") || is_prefix (lit "NODEV") t | None => false end then
    let t := e_ttyname E 0%nat in
    let t := if empty t then e_ttyname E 1%nat else t in
    let t := if empty t then e_ttyname E 2%nat else t in
    if empty t then None else t
  else t.
(** compute_tty_context, modules/pam_selinux/pam_selinux.c:518-581: path, previous context, new context, or the result of an error. *)
Definition compute_tty_context (E : env) (exec : cstr) : (option cstr * option cstr * option cstr) + Z :=
  match terminal E with
  | None => inl (None, None, None)
  | Some t =>
      let path := if is_prefix (lit "/dev/") t then t else (lit "/dev/" ++ t)%list in
      if negb (e_path E) then inr PAM_BUF_ERR
      else match e_getfile E path with
      | Absent => inl (None, None, None)
      | Unreadable => if e_enforce E then inr PAM_SESSION_ERR else inl (Some path, None, None)
      | Label prev =>
          if negb (e_class E) then if e_enforce E then inr PAM_SESSION_ERR else inl (None, None, None)
          else match e_relabel E exec prev with
          | None => if e_enforce E then inr PAM_SESSION_ERR else inl (None, None, None)
          | Some c => inl (Some path, Some prev, Some c)
          end
      end
  end.
(** restore_context, modules/pam_selinux/pam_selinux.c:583-612. *)
Definition restore_context (E : env) (d : option data) : Z * list effect :=
  match d with
  | None => (PAM_SUCCESS, [])
  | Some d =>
      let '(ok1, fx1) := set_file_context E (d_prev_tty d) (d_tty d) in
      let '(ok2, fx2) := set_exec_context E (d_prev_exec d) in
      (if ok1 && ok2 then PAM_SUCCESS else enforced E, (fx1 ++ fx2)%list)
  end.
(** set_context, modules/pam_selinux/pam_selinux.c:614-664. *)
Definition set_context (E : env) (d : data) (verbose : bool) : Z * list effect :=
  let '(ok1, fx1) := set_file_context E (d_tty_con d) (d_tty d) in
  let '(ok2, fx2) := set_exec_context E (Some (d_exec d)) in
  let key := e_setkey E (Some (d_exec d)) in
  (if ok1 && ok2 && key then PAM_SUCCESS else enforced E,
   (fx1 ++ fx2 ++ [Audit ok2 (d_default d) (Some (d_exec d))] ++ (if verbose && ok2 then [Told] else []) ++
    [SetKey (Some (d_exec d)) key] ++ if verbose && key then [Told] else [])%list).
(** An argument is there. *)
Definition given (o : cstr) (args : list cstr) : bool := existsb (fun a => streq a o) args.
(** The result of a call: still asking the user, or the result and the data kept by the handle. *)
Inductive outcome := Asking (fx : list effect) | Done (rc : Z) (d : option data) (fx : list effect).
(** create_context, modules/pam_selinux/pam_selinux.c:666-734. *)
Definition create_context (E : env) (args : list cstr) (verbose : bool) : outcome :=
  let env_params := given (lit "env_params") args in
  if negb (e_on E) then Done PAM_SUCCESS None []
  else if negb (e_calloc E) then Done PAM_BUF_ERR None []
  else match compute_exec_context E (given (lit "select_context") args && negb env_params) (given (lit "use_current_range") args) env_params with
  | (None, fx) => Asking fx
  | (Some (inr rc), fx) => Done rc None fx
  | (Some (inl None), fx) => Done (enforced E) None fx
  | (Some (inl (Some (def, c))), fx) =>
      match (if given (lit "nottys") args then inl (None, None, None) else compute_tty_context E c) with
      | inr rc => Done rc None fx
      | inl (path, prev, con) =>
          if negb (e_data E =? PAM_SUCCESS) then Done (e_data E) None fx
          else
            let d := mkData c (match e_getexec E with Some p => p | None => None end) def con prev path in
            let '(rc, fx') := set_context E d verbose in
            Done rc (Some d) (fx ++ fx')%list
      end
  end.
(** pam_sm_open_session, modules/pam_selinux/pam_selinux.c:751-790. *)
Definition open_session (E : env) (args : list cstr) (d : option data) : outcome :=
  if given (lit "close") args then Done PAM_SUCCESS d []
  else if given (lit "restore") args then let '(rc, fx) := restore_context E d in Done rc d fx
  else match d with
  | Some d => let '(rc, fx) := set_context E d (given (lit "verbose") args) in Done rc (Some d) fx
  | None => create_context E args (given (lit "verbose") args)
  end.
(** pam_sm_close_session, modules/pam_selinux/pam_selinux.c:792-817. *)
Definition close_session (E : env) (args : list cstr) (d : option data) : Z * list effect :=
  if given (lit "open") args then (PAM_SUCCESS, []) else restore_context E d.
(** pam_sm_authenticate and pam_sm_setcred, modules/pam_selinux/pam_selinux.c:736-749. *)
Definition authenticate : Z := PAM_AUTH_ERR.
Definition setcred : Z := PAM_SUCCESS.
