(** Model of modules/pam_tty_audit/pam_tty_audit.c: which users are audited, and the state of the kernel. Logging is left out. The netlink
    messages (lines 60-193) are inputs: they work or fail. Simplification: strdup (299) and malloc (349) succeed. The option log_passwd is compiled in. *)
From Coq Require Import String Ascii List Arith ZArith Bool.
From Verif Require Import Base Num_Model Str_Model Opt_Model.
Import ListNotations.

(** struct audit_tty_status of linux/audit.h, as used in modules/pam_tty_audit/pam_tty_audit.c:373-385. *)
Record status := mkStatus { enabled : Z; log_passwd : Z }.
(** The status of the process in the kernel, and the data of the handle under DATANAME. *)
Record state := mkState { kernel : status; saved : option status }.
(** socket, modules/pam_tty_audit/pam_tty_audit.c:353-362: works; fails with EPROTONOSUPPORT; fails otherwise. *)
Inductive sock := Works | NotSupported | Fails.
(** What the module learns from outside, modules/pam_tty_audit/pam_tty_audit.c: pam_get_user (269), the uid (275), fnmatch (310),
    nl_open (353, 435), reading the status (363-364), pam_set_data (390), setting the status (399-401, 437-439). *)
Record env := mkEnv { e_get_user : Z * cstr; e_uid : cstr -> option Z; e_match : cstr -> cstr -> bool; e_sock : sock; e_get : bool; e_data : Z; e_setok : bool }.

(** uid = strtoul(s, &endptr, 10) with errno, modules/pam_tty_audit/pam_tty_audit.c:223-226, 240-242: the uid, of 32 bits, and the text
    at endptr; None when there is no number or it does not fit in unsigned long. *)
Definition uid_of (s : cstr) : option (Z * cstr) :=
  let '(neg, s1) := sign (skip_spaces s) in
  let '(v, n, r) := digits_in 10 s1 0%Z 0 in
  if Nat.eqb n 0 || (ULONG_MAX <? v)%Z then None else Some ((if neg then - v else v) mod 2 ^ 32, r)%Z.
(** enum uid_range with the numbers, modules/pam_tty_audit/pam_tty_audit.c:205-206. *)
Inductive range := RNone | RMM (lo hi : Z) | RMin (lo : Z) | ROne (id : Z) | RErr.
(** parse_uid_range, modules/pam_tty_audit/pam_tty_audit.c:208-251. *)
Definition parse_range (s : cstr) : range :=
  match split_at ":"%char s with
  | None => RNone
  | Some (a, pmax) =>
      let finish (lo : option Z) :=
        match pmax with
        | [] => match lo with None => RErr | Some lo => RMin lo end
        | _ => match uid_of pmax with
               | Some (hi, []) => match lo with None => ROne hi | Some lo => RMM lo hi end
               | _ => RErr
               end
        end in
      match a with
      | [] => finish None
      | _ => match uid_of s with
             | Some (lo, c :: _) => if Ascii.eqb c ":"%char then finish (Some lo) else RErr
             | _ => RErr
             end
      end
  end.
(** Whether a pattern matches, modules/pam_tty_audit/pam_tty_audit.c:307-329. *)
Definition applies (E : env) (user : cstr) (uid : Z) (tok : cstr) : bool :=
  match parse_range tok with
  | RNone => e_match E tok user
  | RMM lo hi => (lo <=? uid)%Z && (uid <=? hi)%Z
  | RMin lo => (lo <=? uid)%Z
  | ROne id => (uid =? id)%Z
  | RErr => false
  end.
(** enum command, modules/pam_tty_audit/pam_tty_audit.c:256. *)
Inductive command := CNone | CEnable | CDisable.
(** Are two commands the same, modules/pam_tty_audit/pam_tty_audit.c:303. *)
Definition same (a b : command) : bool := match a, b with CNone, CNone | CEnable, CEnable | CDisable, CDisable => true | _, _ => false end.
(** The loop over the patterns, modules/pam_tty_audit/pam_tty_audit.c:302-330. *)
Fixpoint patterns (E : env) (user : cstr) (uid : Z) (this : command) (toks : list cstr) (c : command) : command :=
  match toks with
  | [] => c
  | t :: toks => if same c this then c else patterns E user uid this toks (if applies E user uid t then this else c)
  end.
(** The options so far: command, open_only, log_passwd, modules/pam_tty_audit/pam_tty_audit.c:283-287. *)
Record opts := mkOpts { o_command : command; o_only : bool; o_passwd : bool }.
(** One option, modules/pam_tty_audit/pam_tty_audit.c:290-344. *)
Definition tty_arg (E : env) (user : cstr) (uid : Z) (o : opts) (a : cstr) : opts :=
  match skip_prefix (lit "enable=") a with
  | Some v => mkOpts (patterns E user uid CEnable (strtoks [","%char] v) (o_command o)) (o_only o) (o_passwd o)
  | None =>
      match skip_prefix (lit "disable=") a with
      | Some v => mkOpts (patterns E user uid CDisable (strtoks [","%char] v) (o_command o)) (o_only o) (o_passwd o)
      | None =>
          if streq a (lit "open_only") then mkOpts (o_command o) true (o_passwd o)
          else if streq a (lit "log_passwd") then mkOpts (o_command o) (o_only o) true
          else o
      end
  end.
(** pam_sm_open_session, modules/pam_tty_audit/pam_tty_audit.c:253-416. *)
Definition open_session (E : env) (args : list cstr) (s : state) : Z * state :=
  let '(r, user) := e_get_user E in
  if negb (r =? PAM_SUCCESS)%Z then (PAM_SESSION_ERR, s)
  else match e_uid E user with
       | None => (PAM_SESSION_ERR, s)
       | Some uid =>
           let o := fold_left (tty_arg E user uid) args (mkOpts CNone false false) in
           match o_command o with
           | CNone => (PAM_SUCCESS, s)
           | c =>
               match e_sock E with
               | NotSupported => (PAM_IGNORE, s)
               | Fails => (PAM_SESSION_ERR, s)
               | Works =>
                   if negb (e_get E) then (PAM_SESSION_ERR, s)
                   else
                     let old := kernel s in
                     let new := mkStatus (if same c CEnable then 1 else 0) (if o_passwd o then 1 else 0) in
                     if (enabled old =? enabled new)%Z && (log_passwd old =? log_passwd new)%Z then (PAM_SUCCESS, s)
                     else if negb (o_only o) && negb (e_data E =? PAM_SUCCESS)%Z then (PAM_SESSION_ERR, s)
                     else
                       let s1 := if o_only o then s else mkState old (Some old) in
                       if e_setok E then (PAM_SUCCESS, mkState new (saved s1)) else (PAM_SESSION_ERR, s1)
               end
           end
       end.
(** pam_sm_close_session, modules/pam_tty_audit/pam_tty_audit.c:418-450. *)
Definition close_session (E : env) (s : state) : Z * state :=
  match saved s with
  | None => (PAM_SUCCESS, s)
  | Some st => if match e_sock E with Works => true | _ => false end && e_setok E then (PAM_SUCCESS, mkState st (saved s)) else (PAM_SESSION_ERR, s)
  end.
