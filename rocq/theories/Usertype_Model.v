(** Models of modules/pam_usertype/pam_usertype.c and modules/pam_faildelay/pam_faildelay.c, whose decisions depend on numbers in
    /etc/login.defs. Logging is left out. *)
From Coq Require Import String Ascii List Arith ZArith Bool.
From Verif Require Import Base Num_Model Str_Model Opt_Model.
Import ListNotations.
Local Open Scope Z_scope.

(** enum pam_usertype_op, modules/pam_usertype/pam_usertype.c:57-62. *)
Inductive op := OpSystem | OpRegular.
(** pam_usertype_parse_args, modules/pam_usertype/pam_usertype.c:70-102: use_uid and the operation; audit only logs. *)
Definition usertype_parse (args : list cstr) : bool * option op :=
  fold_left (fun o a =>
    if streq a (lit "use_uid") then (true, snd o)
    else if streq a (lit "audit") then o
    else if streq a (lit "issystem") then (fst o, Some OpSystem)
    else if streq a (lit "isregular") then (fst o, Some OpRegular)
    else o) args (false, None).

(** What the module learns from outside, modules/pam_usertype/pam_usertype.c: the uid in the entry of getuid (115), pam_get_user (128), the uid of
    a user (135), the values in /etc/login.defs (165, pam_modutil_search_key), and the build-time constants PAM_USERTYPE_OVERFLOW_UID (204)
    and PAM_USERTYPE_UIDMIN (209). *)
Record env := mkEnv { e_self : option Z; e_get_user : Z * cstr; e_uid : cstr -> option Z; e_defs : cstr -> option cstr; e_overflow : Z; e_uidmin : Z }.

(** pam_usertype_get_uid, modules/pam_usertype/pam_usertype.c:104-151: the uid or the error. *)
Definition get_uid (E : env) (use_uid : bool) : Z + Z :=
  if use_uid then match e_self E with Some u => inl u | None => inr PAM_USER_UNKNOWN end
  else
    let '(r, user) := e_get_user E in
    if negb (r =? PAM_SUCCESS) then inr (if r =? PAM_CONV_AGAIN then PAM_INCOMPLETE else r)
    else match e_uid E user with Some u => inl u | None => inr PAM_USER_UNKNOWN end.

(** MAX_UID_VALUE, modules/pam_usertype/pam_usertype.c:153. *)
Definition MAX_UID_VALUE : Z := 4294967295.
(** pam_usertype_get_id, modules/pam_usertype/pam_usertype.c:155-191. The test of errno at line 180 is never true with ul == 0 here and
    left out. *)
Definition get_id (E : env) (key : cstr) (default : Z) : Z :=
  match e_defs E key with
  | None => default
  | Some value =>
      match strtoul 10 (rtrim value) with
      | (ul, Some []) => if (MAX_UID_VALUE <=? ul) || (MAX_UID_VALUE <=? ul mod 2 ^ 32) then default else ul mod 2 ^ 32
      | _ => default
      end
  end.

(** pam_usertype_is_system, modules/pam_usertype/pam_usertype.c:193-217. *)
Definition is_system (E : env) (uid : Z) : Z :=
  if uid =? 2 ^ 32 - 1 then PAM_USER_UNKNOWN
  else if uid =? e_overflow E then PAM_SUCCESS
  else
    let uid_min := get_id E (lit "UID_MIN") (e_uidmin E) in
    let sys_max := get_id E (lit "SYS_UID_MAX") ((uid_min - 1) mod 2 ^ 32) in
    if (uid <=? sys_max) && (uid <? uid_min) then PAM_SUCCESS else PAM_AUTH_ERR.

(** pam_usertype_is_regular, modules/pam_usertype/pam_usertype.c:219-233. *)
Definition is_regular (E : env) (uid : Z) : Z :=
  let ret := is_system E uid in
  if ret =? PAM_SUCCESS then PAM_AUTH_ERR else if ret =? PAM_USER_UNKNOWN then PAM_USER_UNKNOWN else PAM_SUCCESS.

(** pam_usertype, modules/pam_usertype/pam_usertype.c:258-276, with pam_usertype_evaluate, 235-249. *)
Definition usertype (E : env) (args : list cstr) : Z :=
  let '(use_uid, o) := usertype_parse args in
  match o with
  | None => PAM_SERVICE_ERR
  | Some o =>
      match get_uid E use_uid with
      | inr e => e
      | inl uid => match o with OpSystem => is_system E uid | OpRegular => is_regular E uid end
      end
  end.

(** ** pam_faildelay *)

(** strtoll(s, &ep, 10) is [strtol]: long long and long have 64 bits. parse_delay, modules/pam_faildelay/pam_faildelay.c:82-91. *)
Definition parse_delay (val : cstr) : Z :=
  match strtol val with
  | (delay, Some []) => if delay <? 0 then -1 else delay
  | _ => -1
  end.

(** The loop over the arguments, modules/pam_faildelay/pam_faildelay.c:100-113: None is the return at line 107. *)
Fixpoint delay_args (args : list cstr) (delay : Z) : option Z :=
  match args with
  | [] => Some delay
  | a :: args =>
      match skip_prefix (lit "delay=") a with
      | Some val =>
          let delay := parse_delay val in
          if (delay <? 0) || (4294967295 <? delay) then None else delay_args args delay
      | None => delay_args args delay
      end
  end.

(** pam_sm_authenticate, modules/pam_faildelay/pam_faildelay.c:93-144: the delay in microseconds given to pam_fail_delay, None when it is
    not called; [defs] is the value of FAIL_DELAY in /etc/login.defs. The return value is PAM_IGNORE, or the error of pam_fail_delay. *)
Definition faildelay (defs : option cstr) (args : list cstr) : option Z :=
  match delay_args args (-1) with
  | None => None
  | Some d =>
      if d =? -1 then
        match defs with
        | None => None
        | Some val =>
            let delay := parse_delay val in
            if (delay <? 0) || (4294967295 / 1000000 <? delay) then None else Some (delay * 1000000)
        end
      else Some d
  end.
