(** Models of three modules that let users in or not by simple rules: modules/pam_wheel/pam_wheel.c, modules/pam_nologin/pam_nologin.c
    and modules/pam_shells/pam_shells.c. Logging is left out. *)
From Coq Require Import String Ascii List Arith ZArith Bool.
From Verif Require Import Base Num_Model Str_Model Opt_Model.
Import ListNotations.
Local Open Scope Z_scope.

(** ** pam_wheel *)

(** The bits of ctrl and use_group, modules/pam_wheel/pam_wheel.c:49-53 and 57; debug only logs. *)
Record wopts := mkWopts { w_use_uid : bool; w_trust : bool; w_deny : bool; w_root_only : bool; w_group : cstr }.
(** One argument, modules/pam_wheel/pam_wheel.c:67-83. *)
Definition wheel_arg (a : cstr) (o : wopts) : wopts :=
  if streq a (lit "debug") then o
  else if streq a (lit "use_uid") then mkWopts true (w_trust o) (w_deny o) (w_root_only o) (w_group o)
  else if streq a (lit "trust") then mkWopts (w_use_uid o) true (w_deny o) (w_root_only o) (w_group o)
  else if streq a (lit "deny") then mkWopts (w_use_uid o) (w_trust o) true (w_root_only o) (w_group o)
  else if streq a (lit "root_only") then mkWopts (w_use_uid o) (w_trust o) (w_deny o) true (w_group o)
  else match skip_prefix (lit "group=") a with
       | Some g => mkWopts (w_use_uid o) (w_trust o) (w_deny o) (w_root_only o) g
       | None => o
       end.
(** _pam_parse, modules/pam_wheel/pam_wheel.c:55-87. *)
Definition wheel_parse (args : list cstr) : wopts := fold_left (fun o a => wheel_arg a o) args (mkWopts false false false false []).

(** What pam_wheel learns from outside, modules/pam_wheel/pam_wheel.c: the name and code of pam_get_user (98), the uid of a user (107, 144),
    the uid of the entry of getuid (122), pam_modutil_getlogin (131), the items PAM_RHOST and PAM_RUSER (137-139; None also when pam_get_item
    fails), the gid of a group (160, 164), whether there is a group 0 (161), membership by numbers (192). The pointer fromsu, which is not
    set when pam_get_item fails at line 139, is NULL from line 134 on. *)
Record wenv := mkWenv {
  v_get_user : Z * cstr; v_uid : cstr -> option Z; v_self : option Z; v_login : option cstr; v_rhost : option cstr; v_ruser : option cstr;
  v_gid : cstr -> option Z; v_gid0 : bool; v_member : Z -> Z -> bool }.

(** Who asks, modules/pam_wheel/pam_wheel.c:121-153: the uid, or None for PAM_SERVICE_ERR. *)
Definition asker (E : wenv) (o : wopts) : option Z :=
  if w_use_uid o then v_self E
  else
    let from := match v_login E with
                | Some l => Some l
                | None => match v_rhost E with None => v_ruser E | Some _ => None end
                end in
    match from with Some n => v_uid E n | None => None end.

(** The group, modules/pam_wheel/pam_wheel.c:159-165. *)
Definition wheel_group (E : wenv) (o : wopts) : option Z :=
  match w_group o with
  | [] => match v_gid E (lit "wheel") with Some g => Some g | None => if v_gid0 E then Some 0 else None end
  | g => v_gid E g
  end.

(** perform_check, modules/pam_wheel/pam_wheel.c:89-232. *)
Definition wheel (E : wenv) (args : list cstr) : Z :=
  let o := wheel_parse args in
  let '(r, user) := v_get_user E in
  if negb (r =? PAM_SUCCESS) then PAM_SERVICE_ERR
  else match v_uid E user with
  | None => PAM_USER_UNKNOWN
  | Some u =>
      if w_root_only o && negb (u =? 0) then PAM_IGNORE
      else match asker E o with
      | None => PAM_SERVICE_ERR
      | Some a =>
          match wheel_group E o with
          | None => if w_deny o then PAM_IGNORE else PAM_AUTH_ERR
          | Some g =>
              if v_member E a g then if w_deny o then PAM_PERM_DENIED else if w_trust o then PAM_SUCCESS else PAM_IGNORE
              else if w_deny o then if w_trust o then PAM_SUCCESS else PAM_IGNORE else PAM_PERM_DENIED
          end
      end
  end.

(** ** pam_nologin *)

(** What an open file shows, modules/pam_nologin/pam_nologin.c:98-134: fstat fails, a directory, or a size in bytes, whether memory
    is there for it, and the bytes read (pam_modutil_read). *)
Inductive shown := FStatErr | FDir | FFile (size : Z) (memory : bool) (bytes : list ascii).
(** What pam_nologin learns from outside, modules/pam_nologin/pam_nologin.c: the code and name of pam_get_user (69), the files open can open
    (75-79) and the uid of a user (88). *)
Record nenv := mkNenv { n_get_user : Z * cstr; n_open : cstr -> option shown; n_uid : cstr -> option Z }.

(** The options, modules/pam_nologin/pam_nologin.c:37-57: the return value without a file and the name of the file. *)
Definition nologin_parse (args : list cstr) : Z * option cstr :=
  fold_left (fun o a =>
    if streq (lit "successok") a then (PAM_SUCCESS, snd o)
    else match skip_prefix (lit "file=") a with Some f => (fst o, Some f) | None => o end) args (PAM_IGNORE, None).

(** perform_check, modules/pam_nologin/pam_nologin.c:63-145: the return value, and the message with its style (is it an error) if one is
    sent. The message ends at the first NUL. *)
Definition nologin (E : nenv) (args : list cstr) : Z * option (bool * cstr) :=
  let '(nofile, name) := nologin_parse args in
  let '(r, user) := n_get_user E in
  if negb (r =? PAM_SUCCESS) then (PAM_USER_UNKNOWN, None)
  else
    let fd := match name with
              | None => match n_open E (lit "/var/run/nologin") with Some f => Some f | None => n_open E (lit "/etc/nologin") end
              | Some f => n_open E f
              end in
    match fd with
    | None => (nofile, None)
    | Some f =>
        let '(retval, error) :=
          match n_uid E user with
          | None => (PAM_USER_UNKNOWN, true)
          | Some u => if u =? 0 then (nofile, false) else (PAM_AUTH_ERR, true)
          end in
        match f with
        | FStatErr => (retval, None)
        | FDir => (PAM_SYSTEM_ERR, None)
        | FFile size memory bytes =>
            if size <=? 0 then (retval, None)
            else if 2147483647 <? size then (PAM_SYSTEM_ERR, None)
            else if negb memory then (PAM_BUF_ERR, None)
            else if Z.of_nat (length bytes) =? size then (retval, Some (error, cut bytes))
            else (PAM_SYSTEM_ERR, None)
        end
    end.

(** ** pam_shells *)

(** What pam_shells learns from outside, modules/pam_shells/pam_shells.c: pam_get_user (59), the entry of a user with its shell (64-68; the
    shell None when it is NULL), stat of /etc/shells (38-43: writable by others, regular), its contents if it can be opened (126). *)
Record senv := mkSenv { s_get_user : Z * cstr; s_pw : cstr -> option (option cstr); s_stat : option (bool * bool); s_open : option (list ascii) }.

(** check_file, modules/pam_shells/pam_shells.c:34-50. *)
Definition check_file (E : senv) : bool := match s_stat E with None => false | Some (w, r) => negb (w || negb r) end.

(** perform_check, modules/pam_shells/pam_shells.c:52-153, without USE_ECONF. *)
Definition shells (E : senv) : Z :=
  let '(r, user) := s_get_user E in
  if negb (r =? PAM_SUCCESS) then PAM_SERVICE_ERR
  else match s_pw E user with
  | None => PAM_USER_UNKNOWN
  | Some None => PAM_AUTH_ERR
  | Some (Some sh) =>
      let sh := match sh with [] => lit "/bin/sh" | _ => sh end in
      if negb (check_file E) then PAM_AUTH_ERR
      else match s_open E with
      | None => PAM_SERVICE_ERR
      | Some text =>
          if existsb (fun l => match chomp [c_nl] l with
                               | c :: _ => Ascii.eqb c c_slash && streq (chomp [c_nl] l) sh
                               | [] => false
                               end) (lines_of text) then PAM_SUCCESS else PAM_AUTH_ERR
      end
  end.
