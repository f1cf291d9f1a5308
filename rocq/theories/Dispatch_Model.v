(** Model of libpam/pam_dispatch.c: walking a stack of modules. *)
From Coq Require Import List Arith ZArith Bool.
From Verif Require Import Base.
Import ListNotations.
Local Open Scope Z_scope.

(** Actions: libpam/pam_private.h:194-204 (_PAM_ACTION_ constants); a positive number is a jump. *)
Notation ACT_IGNORE := 0%Z (only parsing).
(** _PAM_ACTION_OK, libpam/pam_private.h:196. *)
Notation ACT_OK := (-1)%Z (only parsing).
(** _PAM_ACTION_DONE, libpam/pam_private.h:197. *)
Notation ACT_DONE := (-2)%Z (only parsing).
(** _PAM_ACTION_BAD, libpam/pam_private.h:198. *)
Notation ACT_BAD := (-3)%Z (only parsing).
(** _PAM_ACTION_DIE, libpam/pam_private.h:199. *)
Notation ACT_DIE := (-4)%Z (only parsing).
(** _PAM_ACTION_RESET, libpam/pam_private.h:200. *)
Notation ACT_RESET := (-5)%Z (only parsing).
(** _PAM_ACTION_UNDEF, libpam/pam_private.h:203. *)
Notation ACT_UNDEF := (-6)%Z (only parsing).

(** PAM_MUST_FAIL_CODE, libpam/pam_dispatch.c:17. *)
Notation MUST_FAIL_CODE := PAM_PERM_DENIED (only parsing).
(** _PAM_INVALID_RETVAL, libpam/pam_private.h:51. *)
Notation INVALID_RETVAL := (-1)%Z (only parsing).
(** PAM_SUBSTACK_MAX_LEVEL, libpam/pam_private.h:206. *)
Definition SUBSTACK_MAX : nat := 16.

(** PAM_HT_ constants, libpam/pam_private.h:68-71. *)
Inductive htype := HT_MODULE | HT_MUST_FAIL | HT_SUBSTACK | HT_SILENT.

(** struct handler, libpam/pam_private.h:53-66.  The [next] pointer is the list tail.
    [h_func] is the function pointer (None = NULL), an abstract identifier.
    [h_cell] is the address of this handler's own [cached_retval] and [h_cellp] the value
    of [cached_retval_p]; both index one array of cached return values (simplification:
    the array of cells replaces pointers into other handler structures).
    The [grantor] flag is kept in the run state, see [wst]. *)
Record handler := mkH {
  h_type : htype;
  h_func : option nat;
  h_actions : list Z;
  h_cell : nat;
  h_cellp : nat;
  h_args : list cstr;
  h_name : cstr;
  h_level : nat
}.

(** impression codes, libpam/pam_dispatch.c:20-22. *)
Inductive imp := IUndef | IPos | INeg.
(** == on impression codes, libpam/pam_dispatch.c:20-22. *)
Definition imp_eqb (a b : imp) : bool :=
  match a, b with IUndef, IUndef | IPos, IPos | INeg, INeg => true | _, _ => false end.

(** use_cached_chain codes, libpam/pam_dispatch.c:25-27. *)
Inductive frozen := PLEASE_FREEZE | MAY_BE_FROZEN | MUST_BE_FROZEN.

(** Mutable state during a walk.  [W] is everything modules can read and change (items,
    data, environment, the outside world).  [grant] holds the positions whose [grantor] flag
    is set, newest first; [trace] the positions whose function was called with the value returned,
    newest first (the trace is ghost state: the C code does not record it). *)
Record wst (W : Type) := mkW { ww : W; cache : list Z; grant : list nat; trace : list (nat * Z) }.
Arguments mkW {W}. Arguments ww {W}. Arguments cache {W}. Arguments grant {W}. Arguments trace {W}.

(** struct _pam_substack_state array; None = malloc'ed and never written. *)
Definition subst := list (option (imp * Z)).

(** struct _pam_former_state (the part used by the walk), libpam/pam_private.h:134-142. *)
Record former := mkF { f_depth : nat; f_imp : imp; f_status : Z; f_subs : subst }.

(** What _pam_dispatch_aux, libpam/pam_dispatch.c:34-318, comes to. *)
Inductive aout (W : Type) :=
| AFin (status : Z) (st : wst W)       (* returned status *)
| AInc (f : former) (st : wst W)       (* returned PAM_INCOMPLETE, state saved in pamh->former *)
| AUB                                  (* undefined behaviour *)
| AFuel.
Arguments AFin {W}. Arguments AInc {W}. Arguments AUB {W}. Arguments AFuel {W}.

(** Values for the choice argument, libpam/pam_private.h:186-192. *)
Notation NOT_STACKED := 0%Z (only parsing).
(** PAM_AUTHENTICATE, libpam/pam_private.h:187. *)
Notation CH_AUTHENTICATE := 1%Z (only parsing).
(** PAM_SETCRED, libpam/pam_private.h:188. *)
Notation CH_SETCRED := 2%Z (only parsing).
(** PAM_ACCOUNT, libpam/pam_private.h:189. *)
Notation CH_ACCOUNT := 3%Z (only parsing).
(** PAM_OPEN_SESSION, libpam/pam_private.h:190. *)
Notation CH_OPEN_SESSION := 4%Z (only parsing).
(** PAM_CLOSE_SESSION, libpam/pam_private.h:191. *)
Notation CH_CLOSE_SESSION := 5%Z (only parsing).
(** PAM_CHAUTHTOK, libpam/pam_private.h:192. *)
Notation CH_CHAUTHTOK := 6%Z (only parsing).

Section Dispatch.
(** Everything module functions can read and change; the handle passed in libpam/pam_dispatch.c:110. *)
Variable W : Type.
(** What calling a module function does: h->func(pamh, flags, argc, argv). *)
Variable call : handler -> Z -> W -> W * Z.

(** libpam/pam_dispatch.c:95-115: attempt to call the module.
    None = substack marker, [continue]. *)
Definition attempt (flags : Z) (depth : nat) (h : handler) (s : wst W) : option (Z * wst W) :=
  match h_type h with
  | HT_MUST_FAIL => Some (MUST_FAIL_CODE, s)
  | HT_SUBSTACK => None
  | HT_MODULE | HT_SILENT =>
      match h_func h with
      | None => Some (PAM_MODULE_UNKNOWN, s)
      | Some _ =>
          let (w', r) := call h flags (ww s) in
          Some (r, mkW w' (cache s) (grant s) ((depth, r) :: trace s))
      end
  end.

(** libpam/pam_dispatch.c:140-175: the return code that selects the action.
    UB when a cell index is not allocated. *)
Definition freeze (uc : frozen) (h : handler) (retval : Z) (s : wst W) : res (Z * wst W) :=
  match uc with
  | PLEASE_FREEZE =>
      match upd (cache s) (h_cell h) retval with
      | Some c' => Ok (retval, mkW (ww s) c' (grant s) (trace s))
      | None => UB
      end
  | _ =>
      match nth_error (cache s) (h_cellp h) with
      | None => UB
      | Some c =>
          if c =? INVALID_RETVAL then
            match uc with
            | MAY_BE_FROZEN => Ok (retval, s)
            | _ => Ok (c, s)
            end
          else Ok (c, s)
      end
  end.

(** libpam/pam_dispatch.c:177-195: (retval, action) from the cached value. *)
Definition select (h : handler) (retval cached : Z) : res (Z * Z) :=
  if (cached <? PAM_SUCCESS) || (PAM_RETURN_VALUES <=? cached)
  then Ok (MUST_FAIL_CODE, ACT_BAD)
  else match nth_error (h_actions h) (Z.to_nat cached) with
       | Some a => Ok (retval, a)
       | None => UB
       end.

(** h->grantor = 1, libpam/pam_dispatch.c:211-219 and 267-276. *)
Definition grant_at (d : nat) (s : wst W) : wst W := mkW (ww s) (cache s) (d :: grant s) (trace s).

(** libpam/pam_dispatch.c:211-219 and 267-276: does an "ok" change the verdict? *)
Definition ok_applies (i : imp) (st : Z) : bool :=
  imp_eqb i IUndef || (imp_eqb i IPos && (st =? PAM_SUCCESS)).
(** The assignments under that test, libpam/pam_dispatch.c:211-219 and 267-276. *)
Definition ok_verdict (i : imp) (st retval cached : Z) : imp * Z :=
  if ok_applies i st && (negb (retval =? PAM_IGNORE) || (cached =? retval))
  then (IPos, retval) else (i, st).

(** libpam/pam_dispatch.c:240-247. *)
Definition bad_verdict (i : imp) (st retval : Z) : imp * Z :=
  if imp_eqb i INeg then (i, st)
  else (INeg, if retval =? PAM_IGNORE then MUST_FAIL_CODE else retval).

(** libpam/pam_dispatch.c:281-287: skip [action] modules at this level, a substack counting
    as one.  [inner] is true inside the do-while body after its first step.  Returns the
    remaining list, its depth, and the remaining count.  (The C loops keep [h] on the last
    skipped element; here we keep the list after it.) *)
Fixpoint do_jump (lvl : nat) (inner : bool) (action : Z) (l : list handler) (d : nat)
  : list handler * nat * Z :=
  match l with
  | [] => ([], d, action)
  | n :: t =>
      if inner && (lvl <? h_level n)%nat then do_jump lvl true action t (S d)
      else if (lvl <=? h_level n)%nat && (0 <? action)
           then do_jump lvl true (action - 1) t (S d)
           else (l, d, action)
  end.

(** libpam/pam_dispatch.c:302-306: skip the rest of the current level. *)
Fixpoint skip_rest (lvl : nat) (l : list handler) (d : nat) : list handler * nat :=
  match l with
  | [] => ([], d)
  | n :: t => if (lvl <=? h_level n)%nat then skip_rest lvl t (S d) else (l, d)
  end.

(** libpam/pam_dispatch.c:309-313 and 317: sanity check and return. *)
Definition finish (i : imp) (st : Z) : Z :=
  if (st =? PAM_SUCCESS) && negb (imp_eqb i IPos) then MUST_FAIL_CODE else st.

(** What one iteration of the loop does: go on with the list [t] at position [d], or leave. *)
Inductive sres :=
| StNext (t : list handler) (d : nat) (i : imp) (st : Z) (subs : subst) (s : wst W)
| StOut (o : aout W).

(** libpam/pam_dispatch.c:200-307: the switch on the action and the [decision_made] label. *)
Definition perform (uc : frozen) (lvl depth : nat) (t : list handler) (i : imp) (st : Z)
  (subs : subst) (retval cached action : Z) (s : wst W) : sres :=
  if action =? ACT_RESET then
    match nth_error subs lvl with
    | Some (Some (i', st')) => StNext t (S depth) i' st' subs s
    | _ => StOut AUB
    end
  else if (action =? ACT_OK) || (action =? ACT_DONE) then
    let (i', st') := ok_verdict i st retval cached in
    let s' := if imp_eqb i' IPos && (retval =? PAM_SUCCESS) then grant_at depth s else s in
    if imp_eqb i' IPos && (action =? ACT_DONE) then
      let (t', d') := skip_rest lvl t (S depth) in StNext t' d' i' st' subs s'
    else StNext t (S depth) i' st' subs s'
  else if (action =? ACT_BAD) || (action =? ACT_DIE) then
    let (i', st') := bad_verdict i st retval in
    if action =? ACT_DIE then
      let (t', d') := skip_rest lvl t (S depth) in StNext t' d' i' st' subs s
    else StNext t (S depth) i' st' subs s
  else if action =? ACT_IGNORE then StNext t (S depth) i st subs s
  else if 0 <? action then
    (* libpam/pam_dispatch.c:266-298 *)
    let (i', st') := match uc with
                     | PLEASE_FREEZE => (i, st)
                     | _ => ok_verdict i st retval cached
                     end in
    let s' := match uc with
              | PLEASE_FREEZE => s
              | _ => if imp_eqb i IUndef && (retval =? PAM_SUCCESS) then grant_at depth s else s
              end in
    let '(t', d', rest) := do_jump lvl false action t (S depth) in
    if rest =? 0 then StNext t' d' i' st' subs s'
    else StNext t' d' INeg MUST_FAIL_CODE subs s'
  else
    (* negative, not a known action: "bad jump in stack", libpam/pam_dispatch.c:294-298 *)
    StNext t (S depth) INeg MUST_FAIL_CODE subs s.

(** libpam/pam_dispatch.c:79-307: one iteration, for the handler [h] followed by [t]. *)
Definition step (flags : Z) (uc : frozen) (skip prev depth : nat)
  (h : handler) (t : list handler) (i : imp) (st : Z) (subs : subst) (s : wst W) : sres :=
  let lvl := h_level h in
  if (depth <? skip)%nat then StNext t (S depth) i st subs s
  else
  match (if (prev <? lvl)%nat then upd subs lvl (Some (i, st)) else Some subs) with
  | None => StOut AUB
  | Some subs =>
    match attempt flags depth h s with
    | None => StNext t (S depth) i st subs s
    | Some (retval, s) =>
      if retval =? PAM_INCOMPLETE then StOut (AInc (mkF depth i st subs) s)
      else
      match freeze uc h retval s with
      | UB => StOut AUB | OutOfFuel => StOut AFuel
      | Ok (cached, s) =>
        match select h retval cached with
        | UB => StOut AUB | OutOfFuel => StOut AFuel
        | Ok (retval, action) => perform uc lvl depth t i st subs retval cached action s
        end
      end
    end
  end.

(** libpam/pam_dispatch.c:78-307: the loop.  [l] is the list starting at [h]; [depth] the
    position of its head. *)
Fixpoint aux_loop (fuel : nat) (flags : Z) (uc : frozen) (skip prev depth : nat)
  (l : list handler) (i : imp) (st : Z) (subs : subst) (s : wst W) : aout W :=
  match fuel with
  | O => AFuel
  | S fuel' =>
    match l with
    | [] => AFin (finish i st) s
    | h :: t =>
      match step flags uc skip prev depth h t i st subs s with
      | StNext t' d' i' st' subs' s' => aux_loop fuel' flags uc skip (h_level h) d' t' i' st' subs' s'
      | StOut o => o
      end
    end
  end.

(** libpam/pam_dispatch.c:66-73: the substack array of a fresh call. *)
Definition fresh_subs : subst :=
  Some (IUndef, MUST_FAIL_CODE) :: repeat None (SUBSTACK_MAX - 1).

(** libpam/pam_dispatch.c:34-74: entry.  [resumed] is Some when a former call is continued.
    [oom] = the malloc of the substack array fails. *)
Definition dispatch_aux (oom : bool) (flags : Z) (uc : frozen) (h : list handler)
  (resumed : option former) (s : wst W) : aout W :=
  match h with
  | [] => AFin MUST_FAIL_CODE s
  | _ =>
    match resumed with
    | Some f => aux_loop (S (length h)) flags uc (f_depth f) 0 0 h (f_imp f) (f_status f) (f_subs f) s
    | None =>
        if oom then AFin PAM_BUF_ERR s
        else aux_loop (S (length h)) flags uc 0 0 0 h IUndef MUST_FAIL_CODE fresh_subs s
    end
  end.

(** struct handlers, libpam/pam_private.h:83-90. *)
Record htable := mkT {
  t_auth : list handler; t_setcred : list handler; t_acct : list handler;
  t_open : list handler; t_close : list handler; t_chauthtok : list handler }.

(** libpam/pam_dispatch.c:356-381 / 385-404: the stack of a table for a choice. *)
Definition pick (t : htable) (choice : Z) : option (list handler) :=
  if choice =? CH_AUTHENTICATE then Some (t_auth t)
  else if choice =? CH_SETCRED then Some (t_setcred t)
  else if choice =? CH_ACCOUNT then Some (t_acct t)
  else if choice =? CH_OPEN_SESSION then Some (t_open t)
  else if choice =? CH_CLOSE_SESSION then Some (t_close t)
  else if choice =? CH_CHAUTHTOK then Some (t_chauthtok t)
  else None.

(** libpam/pam_dispatch.c:354-373. *)
Definition chain_mode (choice : Z) : frozen :=
  if (choice =? CH_SETCRED) || (choice =? CH_CLOSE_SESSION) then MAY_BE_FROZEN else PLEASE_FREEZE.

(** The part of pam_handle_t used by _pam_dispatch (libpam/pam_private.h:153-184).
    [dp_from_module]: caller_is is _PAM_CALLED_FROM_MODULE.  [dp_fchoice]: former.choice. *)
Record dpam := mkD {
  dp_from_module : bool;
  dp_conf : htable; dp_other : htable;
  dp_fchoice : Z; dp_former : former;
  dp_st : wst W }.

(** The stack run for a choice: the service's own, else that of "other". *)
Definition stack_for (p : dpam) (choice : Z) : option (list handler) :=
  match pick (dp_conf p) choice with
  | None => None
  | Some [] => pick (dp_other p) choice
  | Some l => Some l
  end.

(** libpam/pam_dispatch.c:60-63: "forget all that". *)
Definition no_former : former := mkF 0 IUndef MUST_FAIL_CODE [].

(** libpam/pam_dispatch.c:334-439: [init_rv] is the result of _pam_init_handlers, whose effect
    on the tables is modelled in Conf_Model.v.  The ghost trace is restarted whenever a call is
    not a continuation, so it always shows the logical call in progress.  The audit call at 441-445 is in [dispatch_audited].  A module call that would change the handler tables is outside this
    function (see Handle_Model.v). *)
Definition dispatch (init_rv : Z) (oom : bool) (flags choice : Z) (p : dpam) : res (Z * dpam) :=
  if dp_from_module p then Ok (PAM_SYSTEM_ERR, p)
  else if negb (init_rv =? PAM_SUCCESS) then Ok (init_rv, p)
  else
  match stack_for p choice with
  | None => Ok (PAM_ABORT, p)
  | Some h =>
    if negb (dp_fchoice p =? NOT_STACKED) && negb (dp_fchoice p =? choice) then Ok (PAM_ABORT, p)
    else
    let resumed := negb (dp_fchoice p =? NOT_STACKED) in
    let s := if resumed then dp_st p
             else mkW (ww (dp_st p)) (cache (dp_st p)) [] [] in
    match dispatch_aux oom flags (chain_mode choice) h
            (if resumed then Some (dp_former p) else None) s with
    | AFin st s' =>
        Ok (st, mkD false (dp_conf p) (dp_other p)
                  (if st =? PAM_INCOMPLETE then choice else NOT_STACKED)
                  (match h with [] => dp_former p | _ => if resumed then no_former else dp_former p end) s')
    | AInc f s' => Ok (PAM_INCOMPLETE, mkD false (dp_conf p) (dp_other p) choice f s')
    | AUB => UB
    | AFuel => OutOfFuel
    end
  end.

(** How the audit subsystem behaves during one call: not built in or not in the kernel
    (audit_open gives EINVAL and the like), open fails otherwise, or it opens and then the
    allocation of the grantor list may fail and writing may fail with something else than EPERM. *)
Inductive audit_env := AuNone | AuOpenFails | AuOpen (alloc_ok write_ok : bool).

(** _pam_auditlog, libpam/pam_audit.c:131-201 (with _pam_audit_open 67-87, _pam_list_grantors
    89-128, _pam_audit_writelog 26-65).  Simplification: the text of the audit record is not
    modelled, only the returned code. *)
Definition auditlog (e : audit_env) (choice retval : Z) (grantors : list nat) : Z :=
  match e with
  | AuNone => retval
  | AuOpenFails => PAM_SYSTEM_ERR
  | AuOpen alloc_ok write_ok =>
      let retval := if (CH_AUTHENTICATE <=? choice) && (choice <=? CH_CHAUTHTOK)
                       || (choice =? ACT_DONE)
                    then retval else PAM_SYSTEM_ERR in
      let retval := if (retval =? PAM_SUCCESS) && negb (match grantors with [] => true | _ => false end)
                       && negb alloc_ok
                    then PAM_SYSTEM_ERR else retval in
      if write_ok then retval else PAM_SYSTEM_ERR
  end.

(** libpam/pam_dispatch.c:439-447: the audit step.  It is skipped when the preliminary
    chauthtok phase succeeded.  PAM_UPDATE_AUTHTOK is 0x2000. *)
Definition dispatch_audited (e : audit_env) (init_rv : Z) (oom : bool) (flags choice : Z) (p : dpam)
  : res (Z * dpam) :=
  match dispatch init_rv oom flags choice p with
  | Ok (r, p') =>
      if negb (choice =? CH_CHAUTHTOK) || negb (Z.land flags 8192 =? 0) || negb (r =? PAM_SUCCESS)
      then Ok (auditlog e choice r (grant (dp_st p')), p') else Ok (r, p')
  | UB => UB
  | OutOfFuel => OutOfFuel
  end.

End Dispatch.
Arguments attempt {W}. Arguments freeze {W}. Arguments grant_at {W}. Arguments StNext {W}.
Arguments StOut {W}. Arguments perform {W}. Arguments step {W}. Arguments aux_loop {W}.
Arguments dispatch_aux {W}. Arguments mkD {W}. Arguments dp_from_module {W}.
Arguments dp_conf {W}. Arguments dp_other {W}. Arguments dp_fchoice {W}. Arguments dp_former {W}.
Arguments dp_st {W}. Arguments stack_for {W}. Arguments dispatch {W}. Arguments dispatch_audited {W}.
