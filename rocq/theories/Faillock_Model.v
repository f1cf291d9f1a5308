(** Model of pam_faillock: the tally file and the module's entry points. *)
From Coq Require Import String Ascii List Arith ZArith Lia Bool.
From Verif Require Import Base.
Import ListNotations.
Local Open Scope Z_scope.

(** struct tally, modules/pam_faillock/faillock.h:55-62. Of the status the bit TALLY_STATUS_VALID and the kind of
    source are kept; [t_source] holds what strncpy put into the 52 bytes (without padding). *)
Inductive source_kind := SRhost | STty | SService.
(** struct tally itself, modules/pam_faillock/faillock.h:55-62. *)
Record tally := mkTally { t_valid : bool; t_kind : source_kind; t_source : cstr; t_time : Z }.

(** uint64_t arithmetic. *)
Definition u64 (z : Z) : Z := z mod 18446744073709551616.

(** The options used here, struct options, modules/pam_faillock/faillock_config.h:61-82. *)
Record opts := mkOpts {
  deny : Z;                (* unsigned short *)
  fail_interval : Z;       (* unsigned int, at most 604800 *)
  unlock_time : Z;         (* unsigned int, 0 is never *)
  root_unlock_time : Z;
  deny_root : bool;        (* FAILLOCK_FLAG_DENY_ROOT *)
  is_admin : bool
}.

(** MAX_RECORDS and CHUNK_SIZE in records, modules/pam_faillock/faillock.c:110-111. *)
Definition MAX_RECORDS : nat := 1024.
(** CHUNK_SIZE in records, modules/pam_faillock/faillock.c:110-111. *)
Definition CHUNK : nat := 64.

(** The tally file: absent, or its records. A file whose length is not a multiple of the record size is not modelled
    (the incomplete record at the end is ignored on reading and cut off on writing). *)
Definition tfile := option (list tally).

(** Outcome of open(2) on the tally file, apart from its absence. *)
Inductive opening := OpOk | OpAccess | OpOther.
(** What open_tally gives, modules/pam_faillock/faillock.c:54-108: a descriptor or errno. Locking is not part of the
    model of one call; ownership and mode changes are not modelled. A user name with "../" counts as [OpOther]. *)
Inductive opened := FdOk | ErrAccess | ErrNoent | ErrOther.
(** open_tally, modules/pam_faillock/faillock.c:54-108. *)
Definition open_tally (how : opening) (create : bool) (f : tfile) : opened * tfile :=
  match how with
  | OpAccess => (ErrAccess, f)
  | OpOther => (ErrOther, f)
  | OpOk => match f with
            | Some _ => (FdOk, f)
            | None => if create then (FdOk, Some []) else (ErrNoent, f)
            end
  end.

(** The loop of read_tally, modules/pam_faillock/faillock.c:113-146; [fails n] says whether the n-th realloc or read
    fails; reading is pam_modutil_read (C30), which stops short only at the end of the file. None is the return of -1. *)
Fixpoint read_loop (fuel : nat) (fails : nat -> bool) (n : nat) (rest acc : list tally) : res (option (list tally)) :=
  match fuel with
  | O => OutOfFuel
  | S fuel =>
    if fails n then Ok None
    else
      let chunk := firstn CHUNK rest in
      let acc := (acc ++ chunk)%list in
      if (MAX_RECORDS <=? length acc)%nat then Ok (Some acc)
      else if (length chunk =? CHUNK)%nat then read_loop fuel fails (S n) (skipn CHUNK rest) acc
      else Ok (Some acc)
  end.
(** read_tally as a whole; 17 turns suffice for 1024 records in chunks of 64. *)
Definition read_tally (fails : nat -> bool) (f : list tally) : res (option (list tally)) := read_loop 17 fails 0 f [].

(** What happens while update_tally writes. *)
Inductive writing := WrOk | WrSeekFails | WrShort (k : nat) | WrTruncFails.
(** update_tally, modules/pam_faillock/faillock.c:148-174: at most MAX_RECORDS, the last ones, are written from the
    start of the file and the rest is cut off. A short write is taken to stop between records. *)
Definition update_tally (w : writing) (recs f : list tally) : Z * list tally :=
  let data := if (MAX_RECORDS <? length recs)%nat then skipn (length recs - MAX_RECORDS) recs else recs in
  match w with
  | WrSeekFails => (-1, f)
  | WrShort k => if (k <? length data)%nat then (-1, (firstn k data ++ skipn k f)%list) else (0, data)
  | WrTruncFails => (-1, (data ++ skipn (length data) f)%list)
  | WrOk => (0, data)
  end.

(** What the system does during one call of the module. *)
Record sys := mkSys {
  s_now : Z;                      (* time(NULL), as uint64_t *)
  s_open : opening;               (* the first opening *)
  s_create : opening;             (* the opening with O_CREAT *)
  s_read : nat -> bool;
  s_write : writing;
  s_realloc_fails : bool;         (* in write_tally *)
  s_trunc_fails : bool;           (* ftruncate in reset_tally, other than EINTR *)
  s_audit_fails : bool;           (* audit_open fails with audit support in the kernel *)
  s_kind : source_kind;           (* which of rhost, tty, service is set *)
  s_source : cstr
}.

(** The latest time of a valid record, modules/pam_faillock/pam_faillock.c:222-227. *)
Definition latest_of (l : list tally) : Z :=
  fold_left (fun m r => if t_valid r && (m <? t_time r) then t_time r else m) l 0.
(** The number of valid records within the interval before it, modules/pam_faillock/pam_faillock.c:231-237. *)
Definition failures_of (o : opts) (latest : Z) (l : list tally) : nat :=
  fold_left (fun n r => if t_valid r && (u64 (latest - t_time r) <? fail_interval o) then S n else n) l 0%nat.

(** What check_tally leaves behind. *)
Record checked := mkChecked { c_rv : Z; c_recs : list tally; c_open : bool; c_unlocked : bool }.
(** check_tally, modules/pam_faillock/pam_faillock.c:190-272; [preauth]: the action is FAILLOCK_ACTION_PREAUTH. With
    HAVE_LIBAUDIT; messages to the audit system are not modelled. *)
Definition check_tally (o : opts) (y : sys) (preauth : bool) (f : tfile) : res checked :=
  match open_tally (s_open y) false f with
  | (ErrAccess, _) | (ErrNoent, _) => Ok (mkChecked PAM_SUCCESS [] false false)
  | (ErrOther, _) => Ok (mkChecked PAM_SYSTEM_ERR [] false false)
  | (FdOk, f) =>
    bind (read_tally (s_read y) (match f with Some l => l | None => [] end)) (fun r =>
    match r with
    | None => Ok (mkChecked PAM_SYSTEM_ERR [] true false)
    | Some recs =>
      if is_admin o && negb (deny_root o) then Ok (mkChecked PAM_SUCCESS recs true false)
      else
        let latest := latest_of recs in
        let failures := Z.of_nat (failures_of o latest recs) in
        if negb (deny o =? 0) && (deny o <=? failures) then
          if (negb (is_admin o) && negb (unlock_time o =? 0) && (u64 (latest + unlock_time o) <? s_now y)) ||
             (is_admin o && negb (root_unlock_time o =? 0) && (u64 (latest + root_unlock_time o) <? s_now y))
          then if negb preauth && s_audit_fails y then Ok (mkChecked PAM_SYSTEM_ERR recs true false)
               else Ok (mkChecked PAM_SUCCESS recs true true)
          else Ok (mkChecked PAM_AUTH_ERR recs true false)
        else Ok (mkChecked PAM_SUCCESS recs true false)
    end)
  end.

(** reset_tally, modules/pam_faillock/pam_faillock.c:274-289. *)
Definition reset_tally (y : sys) (is_open : bool) (f : tfile) : tfile :=
  if is_open then (if s_trunc_fails y then f else Some [])
  else snd (open_tally (s_create y) true f).

(** The loop of write_tally, modules/pam_faillock/pam_faillock.c:313-328: the record with the lowest time (a time of
    0 does not count as lowest once another record follows), the marking of old records, the number of failures. *)
Fixpoint mark_loop (o : opts) (now : Z) (unlocked : bool) (i : nat) (l : list tally) (oldtime : Z) (oldest failures : nat) : list tally * nat * nat :=
  match l with
  | [] => ([], oldest, failures)
  | r :: l =>
    let older := (oldtime =? 0) || (t_time r <? oldtime) in
    let oldtime := if older then t_time r else oldtime in
    let oldest := if older then i else oldest in
    let drop := unlocked || (fail_interval o <=? u64 (now - t_time r)) in
    let r' := if drop then mkTally false (t_kind r) (t_source r) (t_time r) else r in
    let '(l', oldest, failures) := mark_loop o now unlocked (S i) l oldtime oldest (if drop then failures else S failures) in
    (r' :: l', oldest, failures)
  end.

(** write_tally, modules/pam_faillock/pam_faillock.c:291-403; the result is the return value and the file. *)
Definition write_tally (o : opts) (y : sys) (recs : list tally) (is_open unlocked : bool) (f : tfile) : res (Z * tfile) :=
  let '(op, f) := if is_open then (FdOk, f) else open_tally (s_create y) true f in
  match op with
  | ErrAccess => Ok (PAM_SUCCESS, f)
  | ErrNoent | ErrOther => Ok (PAM_SYSTEM_ERR, f)
  | FdOk =>
    let '(recs, oldest, failures) := mark_loop o (s_now y) unlocked 0 recs 0 0%nat 0%nat in
    let grow := match nth_error recs oldest with None => true | Some r => t_valid r end in
    if grow && s_realloc_fails y then Ok (PAM_BUF_ERR, f)
    else
      let new := mkTally true (s_kind y) (firstn 52 (s_source y)) (s_now y) in
      match (if grow then Some (recs ++ [new])%list else upd recs oldest new) with
      | None => UB
      | Some recs =>
        if negb (deny o =? 0) && (Z.of_nat (S failures) =? deny o) && s_audit_fails y then Ok (PAM_SYSTEM_ERR, f)
        else match f with
             | None => UB
             | Some old => let '(r, new_file) := update_tally (s_write y) recs old in
                           Ok (if r =? 0 then PAM_SUCCESS else PAM_SYSTEM_ERR, Some new_file)
             end
      end
  end.

(** The three actions of pam_sm_authenticate, modules/pam_faillock/pam_faillock.c:487-512; the arguments have been
    parsed, the user is known, and is not excluded by local_users_only. *)
Definition preauth (o : opts) (y : sys) (f : tfile) : res (Z * tfile) :=
  bind (check_tally o y true f) (fun c => Ok (c_rv c, f)).
(** The action authsucc, modules/pam_faillock/pam_faillock.c:487-512. *)
Definition authsucc (o : opts) (y : sys) (f : tfile) : res (Z * tfile) :=
  bind (check_tally o y false f) (fun c =>
  Ok (c_rv c, if c_rv c =? PAM_SUCCESS then reset_tally y (c_open c) f else f)).
(** The action authfail, modules/pam_faillock/pam_faillock.c:487-512. *)
Definition authfail (o : opts) (y : sys) (f : tfile) : res (Z * tfile) :=
  bind (check_tally o y false f) (fun c =>
  if c_rv c =? PAM_SUCCESS
  then bind (write_tally o y (c_recs c) (c_open c) (c_unlocked c) f) (fun '(_, f) => Ok (PAM_IGNORE, f))
  else Ok (c_rv c, f)).
(** pam_sm_acct_mgmt, modules/pam_faillock/pam_faillock.c:561-565, after the authentication part has run. *)
Definition acct (o : opts) (y : sys) (f : tfile) : res (Z * tfile) :=
  bind (check_tally o y false f) (fun c => Ok (PAM_SUCCESS, reset_tally y (c_open c) f)).
