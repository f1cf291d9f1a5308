(** Model of pam_keyinit: modules/pam_keyinit/pam_keyinit.c. Only logging is left out. *)
From Coq Require Import String Ascii List Arith ZArith Bool.
From Verif Require Import Base.
Import ListNotations.
Local Open Scope Z_scope.

(** The real, effective and saved ids of the calling thread; the raw system calls of lines 68-93 change one thread only. *)
Record creds := mkCreds { ru : Z; eu : Z; su : Z; rg : Z; eg : Z; sg : Z }.
(** (uid_t) -1 and (gid_t) -1, which stand for no change. *)
Definition NOID : Z := 4294967295.
(** setreuid(2) and setregid(2) for one kind of id: the new real, effective and saved id. The saved id is set when the real id is given or the
    effective id is not the former real id. *)
Definition setre (r e : Z) (now : Z * Z * Z) : Z * Z * Z :=
  let '(r0, e0, s0) := now in
  let r1 := if r =? NOID then r0 else r in
  let e1 := if e =? NOID then e0 else e in
  (r1, e1, if negb (r =? NOID) || negb (e =? NOID) && negb (e =? r0) then e1 else s0).
(** pam_setreuid, modules/pam_keyinit/pam_keyinit.c:68-75, when it succeeds. *)
Definition setreuid (r e : Z) (c : creds) : creds := let '(r1, e1, s1) := setre r e (ru c, eu c, su c) in mkCreds r1 e1 s1 (rg c) (eg c) (sg c).
(** pam_setregid, modules/pam_keyinit/pam_keyinit.c:77-84, when it succeeds. *)
Definition setregid (r e : Z) (c : creds) : creds := let '(r1, e1, s1) := setre r e (rg c, eg c, sg c) in mkCreds (ru c) (eu c) (su c) r1 e1 s1.
(** pam_setresuid, modules/pam_keyinit/pam_keyinit.c:86-93, when it succeeds. *)
Definition setresuid (r e s : Z) (c : creds) : creds :=
  mkCreds (if r =? NOID then ru c else r) (if e =? NOID then eu c else e) (if s =? NOID then su c else s) (rg c) (eg c) (sg c).

(** What the kernel is asked about keys: a new session keyring, made under a real uid and gid; the user's keyring linked into it; a keyring revoked
    under an effective uid and gid, with what came of it. *)
Inductive event := Join (ring ruid rgid : Z) | Link (done : bool) | Revoke (ring euid egid : Z) (done : bool).
(** The variables of modules/pam_keyinit/pam_keyinit.c:35-39, the ids, and the events so far, last first. session_counter does not overflow
    (simplification). *)
Record kst := mkKst { creds_of : creds; my : Z; counter : Z; revoke : bool; as_uid : Z; as_gid : Z; log : list event }.
(** Fields replaced. *)
Definition with_creds (s : kst) (c : creds) : kst := mkKst c (my s) (counter s) (revoke s) (as_uid s) (as_gid s) (log s).
(** Fields replaced. *)
Definition with_my (s : kst) (r : Z) : kst := mkKst (creds_of s) r (counter s) (revoke s) (as_uid s) (as_gid s) (log s).
(** Fields replaced. *)
Definition with_counter (s : kst) (n : Z) : kst := mkKst (creds_of s) (my s) n (revoke s) (as_uid s) (as_gid s) (log s).
(** An event added. *)
Definition happened (s : kst) (e : event) : kst := mkKst (creds_of s) (my s) (counter s) (revoke s) (as_uid s) (as_gid s) (e :: log s).

(** Answers from outside during one call, modules/pam_keyinit/pam_keyinit.c: pam_get_user (227), the passwd entry found (231); whether setting the
    gid (171, 246) and the uid (176, 251) succeeds, the gid set back after a failure (178, 253), the uid (188, 261) and the gid (193, 266) set back; the
    session keyring (105) and whether errno is ENOSYS (113), the user session keyring (118), the new keyring (133), linking (143), revoking (183). *)
Record env := mkEnv {
  e_user : Z; e_pw : option (Z * Z);
  e_gid : bool; e_uid : bool; e_undo : bool; e_uid_back : bool; e_gid_back : bool;
  e_session : Z; e_nosys : bool; e_usession : Z; e_join : Z; e_link : bool; e_revoke : bool
}.

(** init_keyrings, modules/pam_keyinit/pam_keyinit.c:98-149. *)
Definition init_keyrings (E : env) (force : bool) (error_ret : Z) (s : kst) : Z * kst :=
  let make :=
    if e_join E <? 0 then (error_ret, s)
    else
      let s := happened (with_my s (e_join E)) (Join (e_join E) (ru (creds_of s)) (rg (creds_of s))) in
      (if e_link E then PAM_SUCCESS else error_ret, happened s (Link (e_link E))) in
  if force then make
  else if e_session E <? 0 then (if e_nosys E then PAM_SUCCESS else error_ret, s)
  else if e_usession E <? 0 then (error_ret, s)
  else if negb (e_session E =? e_usession E) then (PAM_SUCCESS, s)
  else make.

(** kill_keyrings, modules/pam_keyinit/pam_keyinit.c:154-201. *)
Definition kill_keyrings (E : env) (error_ret : Z) (s : kst) : Z * kst :=
  if 0 <? my s then
    let old_uid := eu (creds_of s) in
    let old_gid := eg (creds_of s) in
    let g := negb (as_gid s =? old_gid) in
    let u := negb (as_uid s =? old_uid) in
    if g && negb (e_gid E) then (error_ret, s)
    else
      let s := if g then with_creds s (setregid NOID (as_gid s) (creds_of s)) else s in
      if u && negb (e_uid E) then
        (error_ret, if negb (eg (creds_of s) =? old_gid) && e_undo E then with_creds s (setregid NOID old_gid (creds_of s)) else s)
      else
        let s := if u then with_creds s (setresuid NOID (as_uid s) old_uid (creds_of s)) else s in
        let s := happened s (Revoke (my s) (eu (creds_of s)) (eg (creds_of s)) (e_revoke E)) in
        let ret := if e_revoke E then PAM_SUCCESS else error_ret in
        let ret := if u && negb (e_uid_back E) then error_ret else ret in
        let s := if u && e_uid_back E then with_creds s (setreuid NOID old_uid (creds_of s)) else s in
        let ret := if g && negb (e_gid_back E) then error_ret else ret in
        let s := if g && e_gid_back E then with_creds s (setregid NOID old_gid (creds_of s)) else s in
        (ret, with_my s 0)
  else (PAM_SUCCESS, s).

(** do_keyinit, modules/pam_keyinit/pam_keyinit.c:203-272. *)
Definition do_keyinit (E : env) (args : list cstr) (error_ret : Z) (s : kst) : Z * kst :=
  let force := existsb (streq (lit "force")) args in
  let s := mkKst (creds_of s) (my s) (counter s) (revoke s || existsb (streq (lit "revoke")) args) (as_uid s) (as_gid s) (log s) in
  if 0 <? my s then (PAM_SUCCESS, s)
  else if negb (e_user E =? PAM_SUCCESS) then (e_user E, s)
  else match e_pw E with
  | None => (PAM_USER_UNKNOWN, s)
  | Some (uid, gid) =>
      let old_uid := ru (creds_of s) in
      let old_gid := rg (creds_of s) in
      let s := mkKst (creds_of s) (my s) (counter s) (revoke s) uid gid (log s) in
      let g := negb (gid =? old_gid) in
      let u := negb (uid =? old_uid) in
      if g && negb (e_gid E) then (error_ret, s)
      else
        let s := if g then with_creds s (setregid gid NOID (creds_of s)) else s in
        if u && negb (e_uid E) then (error_ret, if e_undo E then with_creds s (setregid old_gid NOID (creds_of s)) else s)
        else
          let s := if u then with_creds s (setreuid uid NOID (creds_of s)) else s in
          let '(ret, s) := init_keyrings E force error_ret s in
          let ret := if u && negb (e_uid_back E) then error_ret else ret in
          let s := if u && e_uid_back E then with_creds s (setreuid old_uid NOID (creds_of s)) else s in
          let ret := if g && negb (e_gid_back E) then error_ret else ret in
          let s := if g && e_gid_back E then with_creds s (setregid old_gid NOID (creds_of s)) else s in
          (ret, s)
  end.

(** The calls of an application, and what other threads do: they share only session_counter. *)
Inductive call := Authenticate | Setcred (establish delete : bool) (args : list cstr) | Open (args : list cstr) | Close | Others (n : Z).
(** The entry points, modules/pam_keyinit/pam_keyinit.c:277-326. *)
Definition step (E : env) (o : call) (s : kst) : Z * kst :=
  match o with
  | Authenticate => (PAM_IGNORE, s)
  | Setcred establish delete args =>
      if establish then do_keyinit E args PAM_CRED_ERR s
      else if delete && (0 <? my s) && revoke s then kill_keyrings E PAM_CRED_ERR s
      else (PAM_IGNORE, s)
  | Open args => do_keyinit E args PAM_SESSION_ERR (with_counter s (counter s + 1))
  | Close =>
      let s := with_counter s (counter s - 1) in
      (PAM_SUCCESS, if (counter s <=? 0) && (0 <? my s) && revoke s then snd (kill_keyrings E PAM_SESSION_ERR s) else s)
  | Others n => (PAM_SUCCESS, with_counter s (counter s + n))
  end.
(** A sequence of calls with the answers during each, and the state after it. *)
Definition run (l : list (env * call)) (s : kst) : kst := fold_left (fun s x => snd (step (fst x) (snd x) s)) l s.
(** The module when it has just been loaded, modules/pam_keyinit/pam_keyinit.c:35-39. *)
Definition start (c : creds) : kst := mkKst c 0 0 false 0 0 [].
