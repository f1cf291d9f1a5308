(** Model of a whole handle: libpam/pam_auth.c, pam_account.c, pam_session.c, pam_password.c, pam_end.c and the
    reloading of the configuration in pam_dispatch.c, over arbitrary modules. *)
From Coq Require Import String Ascii List Arith ZArith QArith Bool.
From Verif Require Import Base Dispatch_Model Delay_Model Item_Model Conf_Model.
Import ListNotations.
Local Open Scope Z_scope.

(** Calls that only an application may make. *)
Inductive mgmt := MAuthenticate | MSetcred | MAcct | MOpen | MClose | MChauthtok | MEnd.

(** What code holding the handle can call, with the failures of allocations as part of the call; [OWorld]:
    anything that does not go through this library's items, delays or management functions. *)
Inductive op (X : Type) :=
| OSet (ty : Z) (a : arg) (oom oom2 : bool)
| OGet (ty : Z)
| OUser (prompt : option cstr) (oom1 oom2 : bool)
| OAuthtok (item : Z) (prompt : option cstr) (noverify : bool) (fail : nat -> bool)
| OVerify (given : cstr) (prompt : option cstr) (fail : nat -> bool)
| OPrompt (style : Z) (text : cstr) (oom : bool)
| ODelay (usec : Z)
| OMgmt (m : mgmt) (flags : Z)
| OWorld (f : X -> X * Z).
Arguments OSet {X}. Arguments OGet {X}. Arguments OUser {X}. Arguments OAuthtok {X}. Arguments OVerify {X}. Arguments OPrompt {X}. Arguments ODelay {X}. Arguments OMgmt {X}. Arguments OWorld {X}.

(** What the caller learns: the code, and what the destination holds (None: not written, or there is none). *)
Definition out : Type := Z * option ival.

(** Code of a module function: a value returned, or a call and what to do with the answer. *)
Inductive mprog (X : Type) := Ret (r : Z) | Call (o : op X) (k : out -> mprog X).
Arguments Ret {X}. Arguments Call {X}.

(** Circumstances of one management call: the audit subsystem, failure of the substack array's allocation,
    failure of the allocation at libpam/pam_handlers.c:424-429, the time, random numbers. *)
Record cenv := mkCE { ce_audit : audit_env; ce_oom : bool; ce_load_oom : bool; ce_now : Z;
  ce_r1 : option Z; ce_r2 : option Z; ce_r3 : option Z }.

Section Handle.
Context {X : Type}.
(** The conversation functions, as in Item_Model.v. *)
Variable converse : nat -> X -> Z -> cstr -> X * (Z * option (option cstr)).
(** The modules' code by function: flags, argc/argv. *)
Variable code : nat -> Z -> list cstr -> mprog X.
(** What reading the configuration of a service gives in a state of the world: the code returned by
    _pam_init_handlers and the tables (see [init_handlers] in Conf_Model.v). *)
Variable load : X -> cstr -> res (Z * cst).
(** Roundings of the delay computation, see Delay_Model.v. *)
Variables rnd1 rnd2 rnd3 rnd4 rnd5 : Q -> Q.

(** One call made by code holding the handle.  For the management functions only the guard
    against modules is here (libpam/pam_auth.c:22-25, 59-62, pam_account.c:15-18, pam_session.c:19-22, 36-39,
    pam_password.c:20-23, pam_end.c:20-23); the calls by the application are below.  Outside a module this branch is not
    used and counts as undefined. *)
Definition run_op (o : op X) (s : hs X) : res (out * hs X) :=
  match o with
  | OSet ty a oom oom2 => bind (set_item oom oom2 ty a s) (fun '(rv, s) => Ok ((rv, None), s))
  | OGet ty => let (rv, v) := get_item ty s in Ok ((rv, Some v), s)
  | OUser p oom1 oom2 => bind (get_user converse oom1 oom2 p s) (fun '(rv, u, s) => Ok ((rv, Some (of_str u)), s))
  | OAuthtok item p nv fail => bind (get_authtok converse fail item p nv s) (fun '(rv, v, s) => Ok ((rv, v), s))
  | OVerify given p fail => bind (get_authtok_verify converse fail given p s) (fun '(rv, v, s) => Ok ((rv, v), s))
  | OPrompt style text oom => let '(rv, r, s) := prompt converse oom style text s in Ok ((rv, Some (of_str r)), s)
  | ODelay usec => let (rv, d) := pam_fail_delay usec (h_delay s) in Ok ((rv, None), set_delay d s)
  | OMgmt _ _ => if h_module s then Ok ((PAM_SYSTEM_ERR, None), s) else UB
  | OWorld f => let (w, r) := f (h_world s) in Ok ((r, None), set_world w s)
  end.

(** The run of a module function; after something undefined nothing is known, which [h_ub] records. *)
Fixpoint run (p : mprog X) (s : hs X) : hs X * Z :=
  match p with
  | Ret r => (s, r)
  | Call o k => match run_op o s with
                | Ok (a, s) => run (k a) s
                | _ => (set_ub true s, PAM_ABORT)
                end
  end.

(** libpam/pam_dispatch.c:107-113. *)
Definition call (h : handler) (flags : Z) (s : hs X) : hs X * Z :=
  match h_func h with
  | None => (s, PAM_MODULE_UNKNOWN)
  | Some f =>
      let s := set_log (EvModule f flags :: h_log s) s in
      let (s, r) := run (code f flags (Dispatch_Model.h_args h)) (set_args (Dispatch_Model.h_args h) s) in
      (set_args [] s, r)
  end.

(** A change of the part of the handle kept in [hs]. *)
Definition on_hs (f : hs X -> hs X) (p : dpam (hs X)) : dpam (hs X) :=
  let w := dp_st p in
  mkD (dp_from_module p) (dp_conf p) (dp_other p) (dp_fchoice p) (dp_former p) (mkW (f (ww w)) (cache w) (grant w) (trace w)).
(** The part of the handle kept in [hs]. *)
Definition the_hs (p : dpam (hs X)) : hs X := ww (dp_st p).

(** _pam_init_handlers, libpam/pam_handlers.c:405-575: nothing when the handlers are loaded; otherwise the old ones are
    freed (420-422; their cached values and grantor flags with them), the configuration is read, and the handlers count
    as loaded when that succeeded.  The suspended state in pamh->former is not touched.  With a NULL service name: 434-436. *)
Definition init (oom : bool) (p : dpam (hs X)) : res (Z * dpam (hs X)) :=
  let s := the_hs p in
  if h_loaded s then Ok (PAM_SUCCESS, p)
  else
    let fresh c := mkD (dp_from_module p) (c_conf c) (c_other c) (dp_fchoice p) (dp_former p)
                     (mkW s (repeat INVALID_RETVAL (c_next c)) [] (trace (dp_st p))) in
    if oom then Ok (PAM_BUF_ERR, fresh empty_cst)
    else match s_service (h_str s) with
         | None => Ok (PAM_BAD_ITEM, fresh empty_cst)
         | Some n => bind (load (h_world s) n) (fun '(rv, c) =>
             Ok (rv, if rv =? PAM_SUCCESS then on_hs (set_loaded true) (fresh c) else fresh c))
         end.

(** _pam_dispatch, libpam/pam_dispatch.c:334-448, with the reloading of handlers and the marking of the caller
    (422-428) that [Dispatch_Model.dispatch] leaves out. *)
Definition hdispatch (e : cenv) (flags choice : Z) (p : dpam (hs X)) : res (Z * dpam (hs X)) :=
  if h_module (the_hs p) then Ok (PAM_SYSTEM_ERR, p)
  else
  bind (init (ce_load_oom e) p) (fun '(rv, p) =>
  let runs := (rv =? PAM_SUCCESS) && match stack_for p choice with None => false | Some _ => true end &&
              ((dp_fchoice p =? NOT_STACKED) || (dp_fchoice p =? choice)) in
  let resumed := negb (dp_fchoice p =? NOT_STACKED) in
  let p1 := if runs then on_hs (fun s => set_choice choice (set_module true s)) p else p in
  bind (dispatch_audited call (ce_audit e) rv (ce_oom e) flags choice p1) (fun '(r, p) =>
  let p := if runs then on_hs (fun s => set_log (EvDone choice flags resumed r :: h_log s) (set_module false s)) p else p in
  if h_ub (the_hs p) then UB else Ok (r, p))).

(** _pam_sanitize, libpam/pam_misc.c:212-223. *)
Definition sanitize (s : hs X) : res (hs X) :=
  let old := h_module s in
  bind (set_item false false I_AUTHTOK ANull (set_module true s)) (fun '(_, s) =>
  bind (set_item false false I_OLDAUTHTOK ANull s) (fun '(_, s) => Ok (set_module old s))).

(** _pam_await_timer, libpam/pam_delay.c:105-148, on the handle; the wait is logged. *)
Definition await (e : cenv) (status : Z) (s : hs X) : res (hs X) :=
  bind (await_timer rnd1 rnd2 rnd3 rnd4 rnd5 (ce_r1 e) (ce_r2 e) (ce_r3 e)
          (match h_fn s with Some _ => true | None => false end) status (h_delay s)) (fun '(w, d) =>
  Ok (set_log (EvWait w :: h_log s) (set_delay d s))).

(** A function on the part in [hs] as one on the whole handle. *)
Definition lift (f : hs X -> res (hs X)) (p : dpam (hs X)) : res (dpam (hs X)) :=
  bind (f (the_hs p)) (fun s => Ok (on_hs (fun _ => s) p)).

(** pam_authenticate, libpam/pam_auth.c:14-49, with pamh not NULL, built without PRELUDE. *)
Definition authenticate (e : cenv) (flags : Z) (p : dpam (hs X)) : res (Z * dpam (hs X)) :=
  if h_module (the_hs p) then Ok (PAM_SYSTEM_ERR, p)
  else
  bind (if dp_fchoice p =? NOT_STACKED
        then bind (lift sanitize p) (fun p => Ok (on_hs (fun s => set_delay (start_timer (ce_now e) (h_delay s)) s) p))
        else Ok p) (fun p =>
  bind (hdispatch e flags CH_AUTHENTICATE p) (fun '(r, p) =>
  if negb (r =? PAM_INCOMPLETE)
  then bind (lift sanitize p) (fun p => bind (lift (await e r) p) (fun p => Ok (r, p)))
  else Ok (r, p))).

(** pam_setcred, libpam/pam_auth.c:51-73.  PAM_ESTABLISH_CRED is 2. *)
Definition setcred (e : cenv) (flags : Z) (p : dpam (hs X)) : res (Z * dpam (hs X)) :=
  if h_module (the_hs p) then Ok (PAM_SYSTEM_ERR, p)
  else hdispatch e (if flags =? 0 then 2 else flags) CH_SETCRED p.
(** pam_acct_mgmt, libpam/pam_account.c:7-23; pam_open_session and pam_close_session, libpam/pam_session.c:11-45. *)
Definition acct_mgmt (e : cenv) (flags : Z) (p : dpam (hs X)) : res (Z * dpam (hs X)) :=
  if h_module (the_hs p) then Ok (PAM_SYSTEM_ERR, p) else hdispatch e flags CH_ACCOUNT p.
(** pam_open_session, libpam/pam_session.c:11-27. *)
Definition open_session (e : cenv) (flags : Z) (p : dpam (hs X)) : res (Z * dpam (hs X)) :=
  if h_module (the_hs p) then Ok (PAM_SYSTEM_ERR, p) else hdispatch e flags CH_OPEN_SESSION p.
(** pam_close_session, libpam/pam_session.c:28-45. *)
Definition close_session (e : cenv) (flags : Z) (p : dpam (hs X)) : res (Z * dpam (hs X)) :=
  if h_module (the_hs p) then Ok (PAM_SYSTEM_ERR, p) else hdispatch e flags CH_CLOSE_SESSION p.

(** PAM_PRELIM_CHECK and PAM_UPDATE_AUTHTOK, libpam/include/security/pam_modules.h:60-64. *)
Definition PRELIM : Z := 16384.
(** PAM_UPDATE_AUTHTOK, libpam/include/security/pam_modules.h:60-64. *)
Definition UPDATE : Z := 8192.

(** pam_chauthtok, libpam/pam_password.c:12-61. *)
Definition chauthtok (e1 e : cenv) (flags : Z) (p : dpam (hs X)) : res (Z * dpam (hs X)) :=
  if h_module (the_hs p) then Ok (PAM_SYSTEM_ERR, p)
  else if negb (Z.land flags (Z.lor PRELIM UPDATE) =? 0) then Ok (PAM_SYSTEM_ERR, p)
  else
  bind (if dp_fchoice p =? NOT_STACKED
        then bind (lift sanitize (on_hs (fun s => set_delay (start_timer (ce_now e) (h_delay s)) s) p)) (fun p => Ok (on_hs (set_update false) p))
        else Ok p) (fun p =>
  bind (if h_update (the_hs p) then Ok (PAM_SUCCESS, p)
        else hdispatch e1 (Z.lor flags PRELIM) CH_CHAUTHTOK p) (fun '(r, p) =>
  bind (if r =? PAM_SUCCESS
        then hdispatch e (Z.lor flags UPDATE) CH_CHAUTHTOK (on_hs (set_update true) p)
        else Ok (r, p)) (fun '(r, p) =>
  if negb (r =? PAM_INCOMPLETE)
  then bind (lift sanitize p) (fun p => bind (lift (await e r) (on_hs (set_update false) p)) (fun p => Ok (r, p)))
  else Ok (r, p)))).

(** What an application does with a handle between pam_start and pam_end. *)
Inductive action :=
| AOp (o : op X)
| AMgmt (m : mgmt) (e1 e : cenv) (flags : Z).

(** One action; an application may not call pam_end here (it ends the history).  [OMgmt] is not for applications. *)
Definition act (a : action) (p : dpam (hs X)) : res (out * dpam (hs X)) :=
  match a with
  | AOp (OMgmt _ _) => UB
  | AOp o => bind (run_op o (the_hs p)) (fun '(r, s) => Ok (r, on_hs (fun _ => s) p))
  | AMgmt m e1 e flags =>
      bind (match m with
            | MAuthenticate => authenticate e flags p
            | MSetcred => setcred e flags p
            | MAcct => acct_mgmt e flags p
            | MOpen => open_session e flags p
            | MClose => close_session e flags p
            | MChauthtok => chauthtok e1 e flags p
            | MEnd => UB
            end) (fun '(r, p) => Ok ((r, None), p))
  end.
(** A sequence of calls by the application. *)
Fixpoint acts (l : list action) (p : dpam (hs X)) : res (list out * dpam (hs X)) :=
  match l with
  | [] => Ok ([], p)
  | a :: l => bind (act a p) (fun '(r, p) => bind (acts l p) (fun '(rs, p) => Ok (r :: rs, p)))
  end.

(** The handle in _pam_start_internal, libpam/pam_start.c:62-155, before the handlers are loaded, when no
    allocation failed (fields not set there are 0 from calloc). *)
Definition start_handle (service : cstr) (user : option cstr) (conv : conv_t) (w : X) : dpam (hs X) :=
  mkD false no_handlers no_handlers NOT_STACKED (mkF 0 IUndef 0 [])
    (mkW (mkHS false (mkS (Some (start_service service)) user None None None None None None None None) (Some conv) None no_xauth
            0 false None false false [] 0 false (reset_timer (mkFD false 0 0)) false [] w) [] [] []).
(** pam_start, libpam/pam_start.c:18-175, when nothing fails before _pam_init_handlers (160-171): on failure
    there is no handle. *)
Definition start (oom : bool) (service : cstr) (user : option cstr) (conv : conv_t) (w : X) : res (Z * option (dpam (hs X))) :=
  bind (init oom (start_handle service user conv w)) (fun '(rv, p) =>
  Ok (if rv =? PAM_SUCCESS then (PAM_SUCCESS, Some p) else (PAM_ABORT, None))).
End Handle.
