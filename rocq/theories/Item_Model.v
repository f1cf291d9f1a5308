(** Model of libpam/pam_item.c, libpam/pam_get_authtok.c and libpam/pam_vprompt.c: the items of a handle,
    pam_get_user and pam_get_authtok. *)
From Coq Require Import String Ascii List Arith ZArith Bool.
From Verif Require Import Base Delay_Model.
Import ListNotations.
Local Open Scope Z_scope.

(** Item types, libpam/include/security/_pam_types.h:132-146. *)
Notation I_SERVICE := 1%Z (only parsing).
(** PAM_USER, libpam/include/security/_pam_types.h:133. *)
Notation I_USER := 2%Z (only parsing).
(** PAM_TTY, libpam/include/security/_pam_types.h:134. *)
Notation I_TTY := 3%Z (only parsing).
(** PAM_RHOST, libpam/include/security/_pam_types.h:135. *)
Notation I_RHOST := 4%Z (only parsing).
(** PAM_CONV, libpam/include/security/_pam_types.h:136. *)
Notation I_CONV := 5%Z (only parsing).
(** PAM_AUTHTOK, libpam/include/security/_pam_types.h:137. *)
Notation I_AUTHTOK := 6%Z (only parsing).
(** PAM_OLDAUTHTOK, libpam/include/security/_pam_types.h:138. *)
Notation I_OLDAUTHTOK := 7%Z (only parsing).
(** PAM_RUSER, libpam/include/security/_pam_types.h:139. *)
Notation I_RUSER := 8%Z (only parsing).
(** PAM_USER_PROMPT, libpam/include/security/_pam_types.h:140. *)
Notation I_USER_PROMPT := 9%Z (only parsing).
(** PAM_FAIL_DELAY, libpam/include/security/_pam_types.h:142. *)
Notation I_FAIL_DELAY := 10%Z (only parsing).
(** PAM_XDISPLAY, libpam/include/security/_pam_types.h:144. *)
Notation I_XDISPLAY := 11%Z (only parsing).
(** PAM_XAUTHDATA, libpam/include/security/_pam_types.h:145. *)
Notation I_XAUTHDATA := 12%Z (only parsing).
(** PAM_AUTHTOK_TYPE, libpam/include/security/_pam_types.h:146. *)
Notation I_AUTHTOK_TYPE := 13%Z (only parsing).

(** Message styles, libpam/include/security/_pam_types.h:229-232. *)
Notation ECHO_OFF := 1%Z (only parsing).
(** PAM_PROMPT_ECHO_ON, libpam/include/security/_pam_types.h:230. *)
Notation ECHO_ON := 2%Z (only parsing).
(** PAM_ERROR_MSG, libpam/include/security/_pam_types.h:231. *)
Notation ERROR_MSG := 3%Z (only parsing).

(** struct pam_conv, libpam/include/security/_pam_types.h:286-290: the function (None = NULL) and its data. *)
Record conv_t := mkConv { cv_fn : option nat; cv_data : Z }.
(** struct pam_xauth_data, libpam/include/security/_pam_types.h:296-301. *)
Record xauth_t := mkX { x_namelen : Z; x_name : option cstr; x_datalen : Z; x_data : option (list ascii) }.
(** memset 0: no pointers, lengths 0. *)
Definition no_xauth : xauth_t := mkX 0 None 0 None.

(** The string items of struct pam_handle, libpam/pam_private.h:153-165; None = NULL. *)
Record strs := mkS { s_service : option cstr; s_user : option cstr; s_tty : option cstr; s_rhost : option cstr;
  s_authtok : option cstr; s_oldauthtok : option cstr; s_ruser : option cstr; s_prompt : option cstr;
  s_xdisplay : option cstr; s_atype : option cstr }.

(** What an observer of a handle sees besides return values (ghost; newest first): a conversation
    function called with a style and text, a module function called with flags, the end of a walk over a
    stack (whether it resumed a suspended one, what _pam_dispatch then returns), a wait.  See Handle_Model.v for the last three. *)
Inductive event :=
| EvConv (fn : nat) (style : Z) (text : cstr)
| EvModule (fn : nat) (flags : Z)
| EvDone (choice flags : Z) (resumed : bool) (status : Z)
| EvWait (w : waited).

(** struct pam_handle, libpam/pam_private.h:153-183, without the fields of Dispatch_Model.v (former.choice,
    former.depth, impression, status, substates, handler tables).  [h_module]: caller_is is
    _PAM_CALLED_FROM_MODULE; [h_conv]: pam_conversation; [h_fn]: fail_delay.delay_fn_ptr;
    [h_fail_user], [h_want], [h_saved], [h_update]: former.fail_user, want_user, prompt, update;
    [h_loaded]: handlers.handlers_loaded; [h_args]: mod_argc, mod_argv; [h_verified]: authtok_verified.
    [h_ub] (ghost): something undefined has happened.  [h_log] (ghost): events.  [h_world]: everything else a
    module or conversation function can read or change, including the environment (Env_Model.v) and module
    data (Data_Model.v) of the handle, which none of the functions below touches. *)
Record hs (X : Type) := mkHS {
  h_module : bool; h_str : strs; h_conv : option conv_t; h_fn : option nat; h_xauth : xauth_t;
  h_fail_user : Z; h_want : bool; h_saved : option cstr; h_update : bool; h_loaded : bool;
  h_args : list cstr; h_choice : Z; h_verified : bool; h_delay : fail_delay;
  h_ub : bool; h_log : list event; h_world : X }.
Arguments mkHS {X}. Arguments h_module {X}. Arguments h_str {X}. Arguments h_conv {X}. Arguments h_fn {X}. Arguments h_xauth {X}.
Arguments h_fail_user {X}. Arguments h_want {X}. Arguments h_saved {X}. Arguments h_update {X}. Arguments h_loaded {X}.
Arguments h_args {X}. Arguments h_choice {X}. Arguments h_verified {X}. Arguments h_delay {X}. Arguments h_ub {X}. Arguments h_log {X}. Arguments h_world {X}.

Section Setters.
Context {X : Type}.
(** Assignments to one field (or two that change together). *)
(** Assignment to caller_is, libpam/pam_private.h:155. *)
Definition set_module b (s : hs X) := mkHS b (h_str s) (h_conv s) (h_fn s) (h_xauth s) (h_fail_user s) (h_want s) (h_saved s) (h_update s) (h_loaded s) (h_args s) (h_choice s) (h_verified s) (h_delay s) (h_ub s) (h_log s) (h_world s).
(** Assignment to the string items, libpam/pam_private.h:154-165. *)
Definition set_strs v (s : hs X) := mkHS (h_module s) v (h_conv s) (h_fn s) (h_xauth s) (h_fail_user s) (h_want s) (h_saved s) (h_update s) (h_loaded s) (h_args s) (h_choice s) (h_verified s) (h_delay s) (h_ub s) (h_log s) (h_world s).
(** Assignment to pam_conversation, libpam/pam_private.h:156. *)
Definition set_conv v (s : hs X) := mkHS (h_module s) (h_str s) v (h_fn s) (h_xauth s) (h_fail_user s) (h_want s) (h_saved s) (h_update s) (h_loaded s) (h_args s) (h_choice s) (h_verified s) (h_delay s) (h_ub s) (h_log s) (h_world s).
(** Assignment to fail_delay.delay_fn_ptr, libpam/pam_private.h:168. *)
Definition set_fn v (s : hs X) := mkHS (h_module s) (h_str s) (h_conv s) v (h_xauth s) (h_fail_user s) (h_want s) (h_saved s) (h_update s) (h_loaded s) (h_args s) (h_choice s) (h_verified s) (h_delay s) (h_ub s) (h_log s) (h_world s).
(** Assignment to xauth, libpam/pam_private.h:169. *)
Definition set_xauth v (s : hs X) := mkHS (h_module s) (h_str s) (h_conv s) (h_fn s) v (h_fail_user s) (h_want s) (h_saved s) (h_update s) (h_loaded s) (h_args s) (h_choice s) (h_verified s) (h_delay s) (h_ub s) (h_log s) (h_world s).
(** Assignment to former.fail_user, libpam/pam_private.h:134-151. *)
Definition set_fail_user v (s : hs X) := mkHS (h_module s) (h_str s) (h_conv s) (h_fn s) (h_xauth s) v (h_want s) (h_saved s) (h_update s) (h_loaded s) (h_args s) (h_choice s) (h_verified s) (h_delay s) (h_ub s) (h_log s) (h_world s).
(** Assignment to former.want_user, libpam/pam_private.h:134-151. *)
Definition set_want b v (s : hs X) := mkHS (h_module s) (h_str s) (h_conv s) (h_fn s) (h_xauth s) (h_fail_user s) b v (h_update s) (h_loaded s) (h_args s) (h_choice s) (h_verified s) (h_delay s) (h_ub s) (h_log s) (h_world s).
(** Assignment to former.update, libpam/pam_private.h:134-151. *)
Definition set_update b (s : hs X) := mkHS (h_module s) (h_str s) (h_conv s) (h_fn s) (h_xauth s) (h_fail_user s) (h_want s) (h_saved s) b (h_loaded s) (h_args s) (h_choice s) (h_verified s) (h_delay s) (h_ub s) (h_log s) (h_world s).
(** Assignment to handlers.handlers_loaded, libpam/pam_private.h:170. *)
Definition set_loaded b (s : hs X) := mkHS (h_module s) (h_str s) (h_conv s) (h_fn s) (h_xauth s) (h_fail_user s) (h_want s) (h_saved s) (h_update s) b (h_args s) (h_choice s) (h_verified s) (h_delay s) (h_ub s) (h_log s) (h_world s).
(** Assignment to mod_argc and mod_argv, libpam/pam_private.h:174-175. *)
Definition set_args v (s : hs X) := mkHS (h_module s) (h_str s) (h_conv s) (h_fn s) (h_xauth s) (h_fail_user s) (h_want s) (h_saved s) (h_update s) (h_loaded s) v (h_choice s) (h_verified s) (h_delay s) (h_ub s) (h_log s) (h_world s).
(** Assignment to choice, libpam/pam_private.h:176. *)
Definition set_choice v (s : hs X) := mkHS (h_module s) (h_str s) (h_conv s) (h_fn s) (h_xauth s) (h_fail_user s) (h_want s) (h_saved s) (h_update s) (h_loaded s) (h_args s) v (h_verified s) (h_delay s) (h_ub s) (h_log s) (h_world s).
(** Assignment to authtok_verified, libpam/pam_private.h:181. *)
Definition set_verified b (s : hs X) := mkHS (h_module s) (h_str s) (h_conv s) (h_fn s) (h_xauth s) (h_fail_user s) (h_want s) (h_saved s) (h_update s) (h_loaded s) (h_args s) (h_choice s) b (h_delay s) (h_ub s) (h_log s) (h_world s).
(** Assignment to fail_delay, libpam/pam_private.h:168. *)
Definition set_delay v (s : hs X) := mkHS (h_module s) (h_str s) (h_conv s) (h_fn s) (h_xauth s) (h_fail_user s) (h_want s) (h_saved s) (h_update s) (h_loaded s) (h_args s) (h_choice s) (h_verified s) v (h_ub s) (h_log s) (h_world s).
(** Assignment to the mark that undefined behaviour has happened (ghost state) beside the handle, libpam/pam_private.h:153-183. *)
Definition set_ub b (s : hs X) := mkHS (h_module s) (h_str s) (h_conv s) (h_fn s) (h_xauth s) (h_fail_user s) (h_want s) (h_saved s) (h_update s) (h_loaded s) (h_args s) (h_choice s) (h_verified s) (h_delay s) b (h_log s) (h_world s).
(** Assignment to the list of what was done (ghost state) beside the handle, libpam/pam_private.h:153-183. *)
Definition set_log v (s : hs X) := mkHS (h_module s) (h_str s) (h_conv s) (h_fn s) (h_xauth s) (h_fail_user s) (h_want s) (h_saved s) (h_update s) (h_loaded s) (h_args s) (h_choice s) (h_verified s) (h_delay s) (h_ub s) v (h_world s).
(** Assignment to what lies outside of the handle, libpam/pam_private.h:153-183. *)
Definition set_world (v : X) (s : hs X) := mkHS (h_module s) (h_str s) (h_conv s) (h_fn s) (h_xauth s) (h_fail_user s) (h_want s) (h_saved s) (h_update s) (h_loaded s) (h_args s) (h_choice s) (h_verified s) (h_delay s) (h_ub s) (h_log s) v.
End Setters.

(** The string cell of an item type; None: not a string item. *)
Definition get_str (ty : Z) (t : strs) : option (option cstr) :=
  if ty =? I_SERVICE then Some (s_service t) else if ty =? I_USER then Some (s_user t)
  else if ty =? I_TTY then Some (s_tty t) else if ty =? I_RHOST then Some (s_rhost t)
  else if ty =? I_AUTHTOK then Some (s_authtok t) else if ty =? I_OLDAUTHTOK then Some (s_oldauthtok t)
  else if ty =? I_RUSER then Some (s_ruser t) else if ty =? I_USER_PROMPT then Some (s_prompt t)
  else if ty =? I_XDISPLAY then Some (s_xdisplay t) else if ty =? I_AUTHTOK_TYPE then Some (s_atype t) else None.
(** Assignment to the string cell of an item type. *)
Definition put_str (ty : Z) (v : option cstr) (t : strs) : strs :=
  let f (n : Z) (old : option cstr) := if ty =? n then v else old in
  mkS (f I_SERVICE (s_service t)) (f I_USER (s_user t)) (f I_TTY (s_tty t)) (f I_RHOST (s_rhost t))
      (f I_AUTHTOK (s_authtok t)) (f I_OLDAUTHTOK (s_oldauthtok t)) (f I_RUSER (s_ruser t)) (f I_USER_PROMPT (s_prompt t))
      (f I_XDISPLAY (s_xdisplay t)) (f I_AUTHTOK_TYPE (s_atype t)).

(** The pointer given to pam_set_item: NULL, the very pointer stored in the handle for this item, a pointer to a
    string elsewhere, a pointer [n] bytes into the string stored for this item, a pam_conv, a function, an X
    authentication record elsewhere (with name and data elsewhere), a copy of the stored X record (whose name
    and data pointers are those of the handle). *)
Inductive arg := ANull | ASame | AStr (s : cstr) | AInside (n : nat) | AConv (c : conv_t) | AFn (f : nat) | AXauth (x : xauth_t) | AXCopy.

(** What a pam_get_item destination holds afterwards. *)
Inductive ival := VNull | VStr (s : cstr) | VConv (c : conv_t) | VFn (f : nat) | VXauth (x : xauth_t).
(** A string cell as the value pam_get_item gives. *)
Definition of_str (v : option cstr) : ival := match v with Some s => VStr s | None => VNull end.

Section Items.
Context {X : Type}.

(** What TRY_SET would copy (libpam/pam_item.c:16-25): the string the pointer points to.  Some None = NULL pointer;
    None: not a string, undefined. *)
Definition pointee (a : arg) (cur : option cstr) : option (option cstr) :=
  match a with
  | ANull => Some None
  | AStr s => Some (Some s)
  | ASame => Some cur
  | AInside n => match cur with Some c => if (n <=? length c)%nat then Some (Some (skipn n c)) else None | None => None end
  | _ => None
  end.
(** X != Y in TRY_SET. *)
Definition same_pointer (a : arg) (cur : option cstr) : bool :=
  match a with ASame => true | AInside n => match cur with Some _ => (n =? 0)%nat | None => false end | ANull => match cur with None => true | Some _ => false end | _ => false end.
(** TRY_SET, libpam/pam_item.c:16-25, on the cell of [ty]; None: returns PAM_BUF_ERR. *)
Definition try_set (oom : bool) (ty : Z) (a : arg) (t : strs) : res (option strs) :=
  match get_str ty t with
  | None => UB
  | Some cur =>
      match pointee a cur with
      | None => UB
      | Some v =>
          if same_pointer a cur then Ok (Some t)
          else match v with
               | None => Ok (Some (put_str ty None t))
               | Some _ => if oom then Ok None else Ok (Some (put_str ty v t))
               end
      end
  end.
(** pam_overwrite_string of a stored string: it keeps its place and becomes all zeros, so as a C string it is
    empty, and so is what a pointer inside it points to. *)
Definition blank (v : option cstr) : option cstr := match v with Some _ => Some [] | None => None end.
(** What an argument pointing into an overwritten string points to afterwards. *)
Definition blank_arg (a : arg) (cur : option cstr) : arg :=
  match a with AInside n => match cur with Some c => if (n <=? length c)%nat then AStr [] else a | None => a end | _ => a end.

(** pam_set_item, libpam/pam_item.c:29-179, with pamh not NULL.  [oom]: the first allocation fails, [oom2]: the
    second (only PAM_XAUTHDATA makes two).  Simplifications: an argument of the wrong kind for the item is
    undefined; a negative or wrong datalen (more than the data has) likewise. *)
Definition set_item (oom oom2 : bool) (ty : Z) (a : arg) (s : hs X) : res (Z * hs X) :=
  if ty =? I_SERVICE then
    match a with
    | ANull => Ok (PAM_BAD_ITEM, s)
    | ASame => match s_service (h_str s) with
               | None => Ok (PAM_BAD_ITEM, s)
               | Some n => Ok (PAM_SUCCESS, set_strs (put_str ty (Some (map tolower n)) (h_str s)) (set_loaded false s))
               end
    | _ =>
        let s := set_loaded false s in
        bind (try_set oom ty a (h_str s)) (fun r => match r with
        | None => Ok (PAM_BUF_ERR, s)
        | Some t => match s_service t with
                    | None => UB
                    | Some n => Ok (PAM_SUCCESS, set_strs (put_str ty (Some (map tolower n)) t) s)
                    end
        end)
    end
  else if (ty =? I_USER) || (ty =? I_USER_PROMPT) then
    bind (try_set oom ty a (h_str s)) (fun r => match r with
    | None => Ok (PAM_BUF_ERR, s)
    | Some t => Ok (PAM_SUCCESS, set_fail_user PAM_SUCCESS (set_strs t s))
    end)
  else if (ty =? I_AUTHTOK) || (ty =? I_OLDAUTHTOK) then
    if h_module s then
      match get_str ty (h_str s) with
      | None => UB
      | Some cur =>
          if same_pointer a cur then Ok (PAM_SUCCESS, s)
          else
            let t := put_str ty (blank cur) (h_str s) in
            bind (try_set oom ty (blank_arg a cur) t) (fun r => match r with
            | None => Ok (PAM_BUF_ERR, set_strs t s)
            | Some t' => Ok (PAM_SUCCESS, set_strs t' s)
            end)
      end
    else Ok (PAM_BAD_ITEM, s)
  else if ty =? I_CONV then
    let store c := if oom then Ok (PAM_BUF_ERR, s) else Ok (PAM_SUCCESS, set_fail_user PAM_SUCCESS (set_conv (Some c) s)) in
    match a with
    | ANull => Ok (PAM_PERM_DENIED, s)
    | ASame => match h_conv s with None => Ok (PAM_PERM_DENIED, s) | Some c => store c end
    | AConv c => store c
    | _ => UB
    end
  else if ty =? I_FAIL_DELAY then
    match a with
    | ANull => Ok (PAM_SUCCESS, set_fn None s)
    | ASame => Ok (PAM_SUCCESS, s)
    | AFn f => Ok (PAM_SUCCESS, set_fn (Some f) s)
    | _ => UB
    end
  else if ty =? I_XAUTHDATA then
    let store (x : xauth_t) :=
      match x_name x with
      | None => Ok (PAM_BUF_ERR, set_xauth no_xauth s)
      | Some n =>
          if oom then Ok (PAM_BUF_ERR, set_xauth no_xauth s)
          else match x_data x with
               | None => Ok (PAM_BUF_ERR, set_xauth no_xauth s)
               | Some d =>
                   if (x_datalen x <? 0) || (Z.of_nat (length d) <? x_datalen x) then UB
                   else if oom2 then Ok (PAM_BUF_ERR, set_xauth no_xauth s)
                   else Ok (PAM_SUCCESS, set_xauth (mkX (x_namelen x) (Some n) (x_datalen x) (Some (firstn (Z.to_nat (x_datalen x)) d))) s)
               end
      end in
    match a with
    | ASame => Ok (PAM_SUCCESS, s)
    | AXauth x => store x
    | AXCopy => if negb (x_namelen (h_xauth s) =? 0) || negb (x_datalen (h_xauth s) =? 0) then UB (* copies freed memory *)
                else store (h_xauth s)
    | _ => UB
    end
  else if (ty =? I_TTY) || (ty =? I_RUSER) || (ty =? I_RHOST) || (ty =? I_XDISPLAY) || (ty =? I_AUTHTOK_TYPE) then
    bind (try_set oom ty a (h_str s)) (fun r => match r with
    | None => Ok (PAM_BUF_ERR, s)
    | Some t => Ok (PAM_SUCCESS, set_strs t s)
    end)
  else Ok (PAM_BAD_ITEM, s).

(** pam_get_item, libpam/pam_item.c:181-273, with pamh and item not NULL: code and *item. *)
Definition get_item (ty : Z) (s : hs X) : Z * ival :=
  if (ty =? I_AUTHTOK) || (ty =? I_OLDAUTHTOK) then
    if h_module s then (PAM_SUCCESS, match get_str ty (h_str s) with Some v => of_str v | None => VNull end)
    else (PAM_BAD_ITEM, VNull)
  else if ty =? I_CONV then (PAM_SUCCESS, match h_conv s with Some c => VConv c | None => VNull end)
  else if ty =? I_FAIL_DELAY then (PAM_SUCCESS, match h_fn s with Some f => VFn f | None => VNull end)
  else if ty =? I_XAUTHDATA then (PAM_SUCCESS, VXauth (h_xauth s))
  else match get_str ty (h_str s) with
       | Some v => (PAM_SUCCESS, of_str v)
       | None => (PAM_BAD_ITEM, VNull)
       end.

(** The application's conversation functions: given a style and text, a return code and the response: None =
    *resp is NULL, Some None = resp->resp is NULL.  Simplification: a conversation function does not call
    functions of the library with the handle. *)
Variable converse : nat -> X -> Z -> cstr -> X * (Z * option (option cstr)).
(** A call of the conversation function, noted in the log. *)
Definition ask (fn : nat) (style : Z) (text : cstr) (s : hs X) : Z * option (option cstr) * hs X :=
  let (w, r) := converse fn (h_world s) style text in (r, set_world w (set_log (EvConv fn style text :: h_log s) s)).

(** pam_vprompt, libpam/pam_vprompt.c:46-99, for the formatted [text]; [oom]: vasprintf fails.  Result: the code
    and *response. *)
Definition prompt (oom : bool) (style : Z) (text : cstr) (s : hs X) : Z * option cstr * hs X :=
  match h_conv s with
  | None => (PAM_SYSTEM_ERR, None, s)
  | Some c => match cv_fn c with
              | None => (PAM_SYSTEM_ERR, None, s)
              | Some fn =>
                  if oom then (PAM_BUF_ERR, None, s)
                  else let '(rv, resp, s) := ask fn style text s in
                       (rv, match resp with Some r => r | None => None end, s)
              end
  end.

(** pam_get_user, libpam/pam_item.c:279-402, with pamh and user not NULL: code and *user.  Translations: the C
    locale.  [oom1]: the strdup at 367 fails; [oom2]: the one in pam_set_item does.  A conversation structure
    without function is undefined here (349). *)
Definition get_user (oom1 oom2 : bool) (prompt : option cstr) (s : hs X) : res (Z * option cstr * hs X) :=
  match h_conv s with
  | None => Ok (PAM_SYSTEM_ERR, None, s)
  | Some c =>
    match s_user (h_str s) with
    | Some u => Ok (PAM_SUCCESS, Some u, s)
    | None =>
      if negb (h_fail_user s =? PAM_SUCCESS) then Ok (h_fail_user s, None, s)
      else
      let use := match prompt with Some p => p
                 | None => match s_prompt (h_str s) with Some p => p | None => lit "login:" end end in
      let go (s : hs X) :=
        match cv_fn c with
        | None => UB
        | Some fn =>
          let '(rv, resp, s) := ask fn ECHO_ON use s in
          let rv := if (rv =? PAM_SUCCESS) || (rv =? PAM_BUF_ERR) || (rv =? PAM_CONV_AGAIN) || (rv =? PAM_CONV_ERR) then rv else PAM_CONV_ERR in
          if rv =? PAM_CONV_AGAIN then Ok (rv, None, set_want true (if oom1 then None else Some use) s)
          else if rv =? PAM_SUCCESS then
            match resp with
            | Some (Some r) => bind (set_item oom2 false I_USER (AStr r) s) (fun '(rv, s) => Ok (rv, s_user (h_str s), s))
            | _ => Ok (PAM_CONV_ERR, None, set_fail_user PAM_CONV_ERR s)
            end
          else Ok (rv, None, set_fail_user rv s)
        end in
      if h_want s then
        match h_saved s with
        | None => Ok (PAM_ABORT, None, s)
        | Some p => if negb (streq p use) then Ok (PAM_ABORT, None, s) else go (set_want false None s)
        end
      else go s
    end
  end.

(** get_option, libpam/pam_get_authtok.c:54-78. *)
Fixpoint get_option (args : list cstr) (o : cstr) : option cstr :=
  match args with
  | [] => None
  | a :: t =>
      if is_prefix o a then
        match skipn (length o) a with
        | [] => Some []
        | c :: r => if Ascii.eqb c c_eq then Some r else get_option t o
        end
      else get_option t o
  end.

(** Prompt texts, libpam/pam_get_authtok.c:40-50, 145, 185. *)
Definition text_arg (before after : string) (arg : cstr) : cstr := (lit before ++ arg ++ lit after)%list.

(** Whether the pointer obtained is NULL. *)
Definition is_null (v : ival) : bool := match v with VNull => true | _ => false end.

(** pam_get_authtok_internal, libpam/pam_get_authtok.c:81-212, with pamh and authtok not NULL: code and what
    *authtok holds (None = not written).  [fail n]: the n-th allocation of the call fails (1, 2: the texts of the
    prompts; 3: the token; 4: the text of the error message; 5: PAM_AUTHTOK_TYPE). *)
Definition get_authtok (fail : nat -> bool) (item : Z) (pr : option cstr) (noverify : bool) (s : hs X) : res (Z * option ival * hs X) :=
  let change := h_choice s =? 6 in
  let chpass := if change && (item =? I_AUTHTOK) then if noverify then 1%nat else 2%nat else 0%nat in
  bind (if change then
          match get_option (h_args s) (lit "authtok_type") with
          | None => Ok (match get_item I_AUTHTOK_TYPE s with (0, VStr t) => t | _ => [] end, s)
          | Some t => bind (set_item (fail 5%nat) false I_AUTHTOK_TYPE (AStr t) s) (fun '(_, s) => Ok (t, s))
          end
        else Ok ([], s)) (fun '(atype, s) =>
  let (rv, prev) := get_item item s in
  if (rv =? PAM_SUCCESS) && negb (is_null prev) then Ok (PAM_SUCCESS, Some prev, s)
  else if (match get_option (h_args s) (lit "use_first_pass") with Some _ => true | None => false end) ||
          ((0 <? chpass)%nat && match get_option (h_args s) (lit "use_authtok") with Some _ => true | None => false end) then
    if is_null prev then Ok (if (0 <? chpass)%nat then PAM_AUTHTOK_ERR else PAM_AUTH_ERR, None, s) else Ok (rv, None, s)
  else
  let twice (t1 t2 : cstr) (s : hs X) :=
    let '(rv, r0, s) := prompt (fail 1%nat) ECHO_OFF t1 s in
    match r0 with
    | Some _ => if (rv =? PAM_SUCCESS) && (1 <? chpass)%nat
                then let '(rv, r1, s) := prompt (fail 2%nat) ECHO_OFF t2 s in (rv, r0, r1, s)
                else (rv, r0, None, s)
    | None => (rv, r0, None, s)
    end in
  let typed (b a plain : string) := match atype with [] => lit plain | _ => text_arg b a atype end in
  let '(rv, r0, r1, s) :=
    match pr with
    | Some p => twice p (lit "Retype " ++ p)%list s
    | None =>
        if (0 <? chpass)%nat then twice (typed "New "%string " password: "%string "New password: "%string) (typed "Retype new "%string " password: "%string "Retype new password: "%string) (set_verified false s)
        else if item =? I_OLDAUTHTOK then twice (typed "Current "%string " password: "%string "Current password: "%string) [] s
        else twice (lit "Password: ") [] s
    end in
  let err (text : string) (s : hs X) := if (0 <? chpass)%nat then snd (prompt (fail 4%nat) ERROR_MSG (lit text) s) else s in
  match r0 with
  | None => Ok (PAM_AUTHTOK_ERR, None, err "Password change has been aborted."%string s)
  | Some t0 =>
      if negb (rv =? PAM_SUCCESS) then Ok (PAM_AUTHTOK_ERR, None, err "Password change has been aborted."%string s)
      else
      let store s :=
        bind (set_item (fail 3%nat) false item (AStr t0) s) (fun '(rv, s) =>
        if negb (rv =? PAM_SUCCESS) then Ok (rv, None, s)
        else let s := if (1 <? chpass)%nat then set_verified true s else s in
             let (rv, v) := get_item item s in Ok (rv, Some v, s)) in
      if (1 <? chpass)%nat then
        match r1 with
        | None => Ok (PAM_AUTHTOK_ERR, None, err "Password change has been aborted."%string s)
        | Some t1 => if negb (streq t0 t1) then Ok (PAM_TRY_AGAIN, None, err "Sorry, passwords do not match."%string s) else store s
        end
      else store s
  end).

(** pam_get_authtok_verify, libpam/pam_get_authtok.c:230-289, with pamh and authtok not NULL.  [given]: the string
    *authtok points to when called.  [fail]: 1 the text of the prompt, 3 the token, 4 the text of the message. *)
Definition get_authtok_verify (fail : nat -> bool) (given : cstr) (pr : option cstr) (s : hs X) : res (Z * option ival * hs X) :=
  if negb (h_choice s =? 6) then Ok (PAM_SYSTEM_ERR, None, s)
  else if h_verified s then let (rv, v) := get_item I_AUTHTOK s in Ok (rv, Some v, s)
  else
  let text := match pr with
              | Some p => (lit "Retype " ++ p)%list
              | None => match get_item I_AUTHTOK_TYPE s with
                        | (0, VStr (c :: t)) => text_arg "Retype new " " password: " (c :: t)
                        | _ => lit "Retype new password: "
                        end
              end in
  let '(rv, r, s) := prompt (fail 1%nat) ECHO_OFF text s in
  let drop (m : string) (s : hs X) := bind (set_item false false I_AUTHTOK ANull s) (fun '(_, s) => Ok (snd (prompt (fail 4%nat) ERROR_MSG (lit m) s))) in
  match r with
  | Some t =>
      if rv =? PAM_SUCCESS then
        if negb (streq given t) then bind (drop "Sorry, passwords do not match."%string s) (fun s => Ok (PAM_TRY_AGAIN, None, s))
        else bind (set_item (fail 3%nat) false I_AUTHTOK (AStr t) s) (fun '(rv, s) =>
             if negb (rv =? PAM_SUCCESS) then Ok (rv, None, s)
             else let s := set_verified true s in let (rv, v) := get_item I_AUTHTOK s in Ok (rv, Some v, s))
      else bind (drop "Password change has been aborted."%string s) (fun s => Ok (PAM_AUTHTOK_ERR, None, s))
  | None => bind (drop "Password change has been aborted."%string s) (fun s => Ok (PAM_AUTHTOK_ERR, None, s))
  end.
End Items.
