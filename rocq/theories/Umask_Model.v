(** Model of modules/pam_umask/pam_umask.c: the file mode creation mask of a session. Logging is left out. *)
From Coq Require Import String Ascii List Arith ZArith Bool.
From Verif Require Import Base Num_Model Str_Model Opt_Model.
Import ListNotations.
Local Open Scope Z_scope.

(** pam_str_skip_icase_prefix, libpam/include/pam_inline.h:84-97. *)
Fixpoint skip_iprefix (p s : cstr) : option cstr :=
  match p, s with
  | [], _ => Some s
  | x :: p', y :: s' => if Ascii.eqb (tolower x) (tolower y) then skip_iprefix p' s' else None
  | _ :: _, [] => None
  end.

(** strtol(s, NULL, 8), C standard 7.24.1.8. *)
Definition strtol8 (s : cstr) : Z :=
  let '(neg, s1) := sign (skip_spaces s) in
  let '(v, n, r) := digits_in 8 s1 0 0 in
  clamp LONG_MIN LONG_MAX (if neg then - v else v).

(** options_t, modules/pam_umask/pam_umask.c:63-70: usergroups and umask; debug and silent only change messages. *)
Record opts := mkOpts { o_groups : bool; o_umask : option cstr }.
(** parse_option, modules/pam_umask/pam_umask.c:72-92. *)
Definition parse_option (a : cstr) (o : opts) : opts :=
  match a with
  | [] => o
  | _ =>
      if caseeq a (lit "debug") then o
      else match skip_iprefix (lit "umask=") a with
      | Some s => mkOpts (o_groups o) (Some s)
      | None =>
          if caseeq a (lit "usergroups") then mkOpts true (o_umask o)
          else if caseeq a (lit "nousergroups") then mkOpts false (o_umask o)
          else o
      end
  end.

(** pw_uid, the names of the user and of the primary group (if it has one), pw_gecos (None is NULL); modules/pam_umask/pam_umask.c:143-155. *)
Record pw := mkPw { p_uid : Z; p_name : cstr; p_group : option cstr; p_gecos : option cstr }.
(** What the module learns from outside, modules/pam_umask/pam_umask.c: DEFAULT_USERGROUPS_SETTING (100), UMASK in /etc/login.defs (107) and
    /etc/default/login (109), pam_get_user (204), pam_modutil_getpwnam (211). *)
Record env := mkEnv { e_groups : bool; e_defs : option cstr; e_conf : option cstr; e_get_user : Z * cstr; e_pw : cstr -> option pw }.

(** get_options, modules/pam_umask/pam_umask.c:94-114. *)
Definition get_options (E : env) (args : list cstr) : opts :=
  let o := fold_left (fun o a => parse_option a o) args (mkOpts (e_groups E) None) in
  match o_umask o with
  | Some _ => o
  | None => mkOpts (o_groups o) (match e_defs E with Some v => Some v | None => e_conf E end)
  end.

(** What a call does besides: nice with its argument as a long, setrlimit(RLIMIT_FSIZE) with the product as a long. *)
Inductive effect := ENice (n : Z) | EFsize (n : Z).

(** set_umask, modules/pam_umask/pam_umask.c:116-128; mask is never UINT_MAX at line 125. The masks in the state have nine bits. *)
Definition set_umask (value : cstr) (mask : Z) : Z :=
  match strtoul 8 value with
  | (_, None) => mask
  | (v, Some _) => Z.land v 511
  end.

(** The group bits taken from the owner's, modules/pam_umask/pam_umask.c:138-152. *)
Definition use_groups (o : opts) (p : pw) (mask : Z) : Z :=
  if o_groups o && negb (p_uid p =? 0) && match p_group p with Some g => streq (p_name p) g | None => false end
  then Z.lor (Z.land mask (Z.lnot 56)) (Z.land (Z.shiftr mask 3) 56)
  else mask.

(** One field of the GECOS field, modules/pam_umask/pam_umask.c:162-185: the product of line 177 overflows for large numbers, UB. *)
Definition gecos_item (cp : cstr) (st : Z * list effect) : res (Z * list effect) :=
  let '(mask, fx) := st in
  match skip_iprefix (lit "umask=") cp with
  | Some s => Ok (Z.land (strtol8 s) 511, fx)
  | None =>
      match skip_iprefix (lit "pri=") cp with
      | Some s => Ok (mask, fx ++ [ENice (fst (strtol s))])
      | None =>
          match skip_iprefix (lit "ulimit=") cp with
          | Some s =>
              let v := 512 * fst (strtol s) in
              if (v <? LONG_MIN) || (LONG_MAX <? v) then UB else Ok (mask, fx ++ [EFsize v])
          | None => Ok (mask, fx)
          end
      end
  end.

(** The loop, modules/pam_umask/pam_umask.c:155-186, from cp on. *)
Fixpoint gecos_loop (fuel : nat) (cp : cstr) (st : Z * list effect) : res (Z * list effect) :=
  match fuel with
  | O => OutOfFuel
  | S fuel =>
      let cp := match cp with c :: t => if Ascii.eqb c ","%char then t else cp | [] => cp end in
      bind (gecos_item cp st) (fun st =>
        match strchr ","%char cp with
        | None => Ok st
        | Some cp => gecos_loop fuel cp st
        end)
  end.

(** pam_sm_open_session, modules/pam_umask/pam_umask.c:190-228, from the mask of the process: the code, the mask and the effects. *)
Definition open_session (E : env) (args : list cstr) (mask : Z) : res (Z * Z * list effect) :=
  let o := get_options E args in
  let '(r, user) := e_get_user E in
  if negb (r =? PAM_SUCCESS) then Ok (if r =? PAM_CONV_AGAIN then PAM_INCOMPLETE else r, mask, [])
  else match e_pw E user with
  | None => Ok (PAM_USER_UNKNOWN, mask, [])
  | Some p =>
      let mask := match o_umask o with Some v => set_umask v mask | None => mask end in
      let mask := use_groups o p mask in
      match p_gecos p with
      | None => Ok (PAM_SUCCESS, mask, [])
      | Some g => bind (gecos_loop (S (length g)) g (mask, [])) (fun st => Ok (PAM_SUCCESS, fst st, snd st))
      end
  end.
