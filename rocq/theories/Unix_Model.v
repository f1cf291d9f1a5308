(** Model of pam_unix: checking passwords and the age of passwords, in the module and in its helper unix_chkpwd. *)
From Coq Require Import String Ascii List Arith NArith ZArith Bool.
From Verif Require Import Base Num_Model Inline_Model Unixctl_Model.
Import ListNotations.
Local Open Scope Z_scope.

(** * The user databases *)
(** struct passwd, as far as used. *)
Record pwent := mkPw { pw_name : cstr; pw_passwd : cstr }.
(** struct spwd; [sp_pwdp] None is a NULL pointer. The numbers are of type long. *)
Record spent := mkSp {
  sp_pwdp : option cstr;
  sp_lstchg : Z; sp_min : Z; sp_max : Z; sp_warn : Z; sp_inact : Z; sp_expire : Z
}.
(** getpwnam and getspnam; the latter depends on whether the process may read the shadow file. *)
Record db := mkDb { getpw : cstr -> option pwent; getsp : bool -> cstr -> option spent }.

(** is_pwd_shadowed, modules/pam_unix/passverify.c:183-197. *)
Definition is_shadowed (p : pwent) : bool :=
  streq (pw_passwd p) (lit "x") ||
  match pw_passwd p with
  | a :: b :: rest => Ascii.eqb a "#"%char && Ascii.eqb b "#"%char && streq (pw_name p) rest
  | _ => false
  end.

(** PAM_UNIX_RUN_HELPER, modules/pam_unix/passverify.h:10. *)
Definition RUN_HELPER : Z := PAM_CRED_INSUFFICIENT.

(** get_account_info as compiled into the module, modules/pam_unix/passverify.c:199-253. [try] is PAM_UNIX_TRY_GETSPNAM,
    [priv] whether the process may read the shadow file. pwaccess (USE_PWACCESS) is not modelled. *)
Definition account_info (try priv : bool) (d : db) (name : cstr) : Z * option pwent * option spent :=
  match getpw d name with
  | None => (PAM_USER_UNKNOWN, None, None)
  | Some pw =>
    if is_shadowed pw then
      if try then
        match getsp d priv name with
        | Some sp =>
          match sp_pwdp sp with
          | Some h => if streq name (lit "root") && streq h (lit "!*") then (RUN_HELPER, Some pw, Some sp) else (PAM_SUCCESS, Some pw, Some sp)
          | None => (RUN_HELPER, Some pw, Some sp)
          end
        | None => (RUN_HELPER, Some pw, None)
        end
      else (RUN_HELPER, Some pw, None)
    else (PAM_SUCCESS, Some pw, None)
  end.
(** The same as compiled into the helper (HELPER_COMPILE). *)
Definition account_info_helper (priv : bool) (d : db) (name : cstr) : Z * option pwent * option spent :=
  match getpw d name with
  | None => (PAM_USER_UNKNOWN, None, None)
  | Some pw =>
    if is_shadowed pw then
      match getsp d priv name with
      | Some sp => match sp_pwdp sp with Some _ => (PAM_SUCCESS, Some pw, Some sp) | None => (PAM_AUTHINFO_UNAVAIL, Some pw, Some sp) end
      | None => (PAM_AUTHINFO_UNAVAIL, Some pw, None)
      end
    else (PAM_SUCCESS, Some pw, None)
  end.

(** get_pwd_hash, modules/pam_unix/passverify.c:255-274, on the outcome of get_account_info; [mem] says whether
    x_strdup has memory. x_strdup(NULL) is NULL. *)
Definition hash_of (mem : bool) (info : Z * option pwent * option spent) : Z * option pwent * option cstr :=
  let '(rv, pw, sp) := info in
  if rv =? PAM_SUCCESS then
    let src := match sp with Some s => sp_pwdp s | None => option_map pw_passwd pw end in
    match src with
    | Some h => if mem then (PAM_SUCCESS, pw, Some h) else (PAM_BUF_ERR, pw, None)
    | None => (PAM_BUF_ERR, pw, None)
    end
  else (rv, pw, None).

(** * Hashes *)
(** The characters allowed after the thirteenth, modules/pam_unix/passverify.c:59-61. *)
Definition des_char (c : ascii) : bool := isalnum c || Ascii.eqb c "."%char || Ascii.eqb c "/"%char.
(** The loop at modules/pam_unix/passverify.c:62-67. *)
Fixpoint take_valid (s : cstr) : cstr :=
  match s with c :: s' => if des_char c then c :: take_valid s' else [] | [] => [] end.
(** strip_hpux_aging, modules/pam_unix/passverify.c:56-70. *)
Definition strip_aging (hash : cstr) : cstr :=
  match hash with
  | c :: _ => if negb (Ascii.eqb c "$"%char) && (13 <? length hash)%nat then (firstn 13 hash ++ take_valid (skipn 13 hash))%list else hash
  | [] => []
  end.

Section Hash.
(** crypt_r (NULL is None), Goodcrypt_md5 and Brokencrypt_md5 (None is NULL). *)
Variable crypt : cstr -> cstr -> option cstr.
(** Goodcrypt_md5 and Brokencrypt_md5 (None is NULL). *)
Variable md5_good md5_broken : cstr -> cstr -> option cstr.

(** strncpy(dst, src, n) into zeroed memory: n bytes. *)
Definition strncpy (n : nat) (src : cstr) : list ascii := (firstn n src ++ repeat NUL (n - length src))%list.
(** The C string at the start of a zero-terminated buffer. *)
Fixpoint cut (b : list ascii) : cstr :=
  match b with c :: b' => if Ascii.eqb c NUL then [] else c :: cut b' | [] => [] end.

(** The loop over the further segments of bigcrypt, modules/pam_unix/bigcrypt.c:133-162. [out] is what dec_c2_cryptbuf
    holds before cipher_ptr (zeros follow), [plain] the string at plaintext_ptr; the salt is the segment before
    cipher_ptr. tmp_ptr + 2 lies past the end when crypt gives less than two characters. *)
Fixpoint big_loop (n : nat) (out : list ascii) (plain : cstr) : res (option (list ascii)) :=
  match n with
  | O => Ok (Some out)
  | S n =>
    match crypt plain (cut (skipn (length out - 11) out)) with
    | None => Ok None
    | Some t => if (length t <? 2)%nat then UB
                else big_loop n (out ++ strncpy 11 (skipn 2 t)) (skipn 8 plain)
    end
  end.
(** bigcrypt, modules/pam_unix/bigcrypt.c:52-173, HAVE_CRYPT_R; [mem]: the two callocs succeed. keybuf holds the first
    130 characters of the key; its end reads as an empty string, which [skipn] gives too. *)
Definition bigcrypt (mem : bool) (key salt : cstr) : res (option cstr) :=
  if mem then
    let keybuf := firstn 130 key in
    let keybuf := if (length salt =? 13)%nat then firstn 8 keybuf else keybuf in
    let keylen := length keybuf in
    let n_seg := if (keylen =? 0)%nat then 1%nat else (1 + (keylen - 1) / 8)%nat in
    let n_seg := if (16 <? n_seg)%nat then 16%nat else n_seg in
    match crypt keybuf salt with
    | None => Ok None
    | Some t =>
      bind (big_loop (n_seg - 1) (strncpy 13 t) (skipn 8 keybuf)) (fun o =>
      Ok (option_map cut o))
    end
  else Ok None.

(** verify_pwd_hash, modules/pam_unix/passverify.c:72-181. pam_consttime_streq is equality of strings (theorem
    consttime_is_equality, C33). [mem] covers the allocations on the way. crypt_checksalt only leads to messages. *)
Definition verify_hash (mem : bool) (p : option cstr) (hash0 : cstr) (nullok : bool) : res Z :=
  let hash := strip_aging hash0 in
  let empty := match p with Some [] => true | _ => false end in
  if empty && negb nullok then Ok PAM_AUTH_ERR
  else match hash with
  | [] => Ok (if empty && nullok then PAM_SUCCESS else PAM_AUTH_ERR)
  | h0 :: _ =>
    match p with
    | None => Ok PAM_AUTH_ERR
    | Some p =>
      if Ascii.eqb h0 "*"%char || Ascii.eqb h0 "!"%char then Ok PAM_AUTH_ERR
      else
        bind (if is_prefix (lit "$1$") hash then
                match md5_good p hash with
                | Some pp => if streq pp hash then Ok (Some pp) else Ok (md5_broken p hash)
                | None => Ok None
                end
              else if negb (Ascii.eqb h0 "$"%char) && (13 <=? length hash)%nat then
                bind (bigcrypt mem p hash) (fun pp =>
                Ok (match pp with
                    | Some pp => Some (if (length hash =? 13)%nat && (length hash <? length pp)%nat then firstn 13 pp else pp)
                    | None => None
                    end))
              else Ok (if mem then crypt p hash else None))
        (fun pp => Ok (match pp with Some pp => if streq pp hash then PAM_SUCCESS else PAM_AUTH_ERR | None => PAM_AUTH_ERR end))
    end
  end.

(** * The age of passwords *)
(** long arithmetic: a value outside the range is undefined. *)
Definition lng (z : Z) : res Z := if (LONG_MIN <=? z) && (z <=? LONG_MAX) then Ok z else UB.

(** check_shadow_expiry, modules/pam_unix/passverify.c:276-335: the verdict and *daysleft; [now] is time(NULL). *)
Definition shadow_expiry (now : Z) (s : spent) : res (Z * Z) :=
  let curdays := Z.quot now 86400 in
  if (0 <=? sp_expire s) && (sp_expire s <=? curdays) then Ok (PAM_ACCT_EXPIRED, -1)
  else if sp_lstchg s =? 0 then Ok (PAM_NEW_AUTHTOK_REQD, 0)
  else if sp_lstchg s <? 0 then Ok (PAM_SUCCESS, -1)
  else if curdays <? sp_lstchg s then Ok (PAM_SUCCESS, -1)
  else
    bind (lng (curdays - sp_lstchg s)) (fun passed =>
    let rest daysleft :=
      if (0 <? sp_min s) && (passed <? sp_min s) then Ok (PAM_AUTHTOK_ERR, daysleft) else Ok (PAM_SUCCESS, daysleft) in
    if 0 <=? sp_max s then
      let later :=
        if sp_max s <=? passed then Ok (PAM_NEW_AUTHTOK_REQD, -1)
        else if 0 <? sp_warn s then
          bind (if sp_max s <? sp_warn s then Ok (-1) else lng (sp_max s - sp_warn s)) (fun warn =>
          if warn <=? passed then bind (lng (sp_max s - passed)) rest else rest (-1))
        else rest (-1) in
      if 0 <=? sp_inact s then
        bind (lng (LONG_MAX - sp_inact s)) (fun room =>
        bind (if sp_max s <? room then lng (sp_max s + sp_inact s) else Ok LONG_MAX) (fun inact =>
        if inact <=? passed then bind (lng (inact - passed)) (fun d => Ok (PAM_AUTHTOK_EXPIRED, d)) else later))
      else later
    else rest (-1)).

(** * The helper *)
(** helper_verify_password, modules/pam_unix/passverify.c:1052-1076. *)
Definition helper_verify (mem priv : bool) (d : db) (name p : cstr) (nullok : bool) : res Z :=
  let '(_, pw, hash) := hash_of mem (account_info_helper priv d name) in
  match pw, hash with
  | Some _, Some h => verify_hash mem (Some p) h nullok
  | _, _ => Ok PAM_USER_UNKNOWN
  end.

(** What unix_chkpwd is started with: whether stdin is a terminal, whether the real uid is 0, the name of the real uid
    (getuidname), whether giving up its privileges works (and cannot be undone), whether writing the audit record works
    (true also without libaudit), whether there is memory. *)
Record chk := mkChk { c_tty : bool; c_root : bool; c_own : option cstr; c_drop : bool; c_audit : bool; c_mem : bool }.

(** Whether the helper keeps its privileges for this user; None: it stops with PAM_AUTH_ERR.
    modules/pam_unix/unix_chkpwd.c:106-129. When the real and effective ids are the same there is nothing to give up. *)
Definition helper_priv (k : chk) (user : cstr) : option bool :=
  if c_root k then Some true
  else match c_own k with
       | Some n => if streq n user then Some true else if c_drop k then Some false else None
       | None => if c_drop k then Some false else None
       end.

(** _check_expiry, modules/pam_unix/unix_chkpwd.c:39-61: exit status and the number printed. *)
Definition check_expiry (priv : bool) (d : db) (now : Z) (user : cstr) : res (Z * option Z) :=
  match account_info_helper priv d user with
  | (rv, _, Some s) => if rv =? PAM_SUCCESS then bind (shadow_expiry now s) (fun '(v, days) => Ok (v, Some days)) else Ok (rv, Some (-1))
  | (rv, _, None) => Ok (rv, Some (-1))
  end.

(** The password as main reads it with pam_read_passwords into a buffer of PAM_MAX_RESP_SIZE + 1 bytes,
    modules/pam_unix/unix_chkpwd.c:150-155. [s] is what arrives on stdin and how the kernel splits it. *)
Definition read_pass (fuel : nat) (buf : list ascii) (s : src) : res cstr :=
  bind (read_passwords fuel 1 [buf] s) (fun '(n, bufs, _) =>
  if (n =? 1)%nat then match bufs with b :: _ => Ok (cut b) | [] => UB end else Ok []).

(** main of unix_chkpwd, modules/pam_unix/unix_chkpwd.c:63-194, from the arguments after argv[0]: exit status and the number
    printed on stdout. audit_log (modules/pam_unix/audit.c:15-42) matters for the status only after a success. *)
Definition chkpwd (fuel : nat) (k : chk) (d : db) (now : Z) (argv : list cstr) (buf : list ascii) (s : src) : res (Z * option Z) :=
  match argv with
  | [user; option] =>
    if c_tty k then Ok (PAM_SYSTEM_ERR, None)
    else match helper_priv k user with
    | None => Ok (PAM_AUTH_ERR, None)
    | Some priv =>
      if streq option (lit "chkexpiry") then check_expiry priv d now user
      else
        let check nullok :=
          bind (read_pass fuel buf s) (fun pass =>
          bind (helper_verify (c_mem k) priv d user pass nullok) (fun rv =>
          Ok (if rv =? PAM_SUCCESS then (if negb (c_root k) && negb (c_audit k) then PAM_AUTH_ERR else PAM_SUCCESS)
              else if rv =? PAM_USER_UNKNOWN then PAM_AUTHINFO_UNAVAIL else PAM_AUTH_ERR, None))) in
        if streq option (lit "nullok") then check true
        else if streq option (lit "nonull") then check false
        else Ok (PAM_SYSTEM_ERR, None)
    end
  | _ => Ok (PAM_SYSTEM_ERR, None)
  end.

(** What the module writes to the pipe, modules/pam_unix/support.c:595-615. Simplification: writing at most 513 bytes to an
    empty pipe is taken to work. *)
Definition sent (p : option cstr) : list ascii := (firstn 512 (match p with Some p => p | None => [] end) ++ [NUL])%list.

(** How starting the helper goes: no pipe, no child, waitpid fails or the child dies; the child exits with
    PAM_AUTHINFO_UNAVAIL in silence or after printing -1; the helper runs (with a buffer of some contents and some splitting of
    its reads). *)
Inductive running := RNone | RSilent | RNoExec | RRuns (k : chk) (buf : list ascii) (plan : list kstep).

(** _unix_run_helper_binary, modules/pam_unix/support.c:522-641. Signals are not modelled. *)
Definition run_helper (fuel : nat) (how : running) (d : db) (p : option cstr) (ctrl : N) (user : cstr) : res Z :=
  match how with
  | RNone => Ok PAM_AUTH_ERR
  | RSilent | RNoExec => Ok PAM_AUTHINFO_UNAVAIL
  | RRuns k buf plan =>
    bind (chkpwd fuel k d 0 [user; if off NONULL ctrl then lit "nullok" else lit "nonull"] buf (mkSrc (sent p) plan)) (fun '(rv, _) => Ok rv)
  end.

(** _unix_run_verify_binary, modules/pam_unix/pam_unix_acct.c:65-181: the return value and *daysleft (None: left alone).
    The number printed is read back with sscanf "%ld", which gives it back; a helper that prints nothing leads to
    PAM_AUTH_ERR. *)
Definition run_verify (fuel : nat) (how : running) (d : db) (now : Z) (user : cstr) : res (Z * option Z) :=
  match how with
  | RNone | RSilent => Ok (PAM_AUTH_ERR, None)
  | RNoExec => Ok (PAM_AUTHINFO_UNAVAIL, Some (-1))
  | RRuns k buf plan =>
    bind (chkpwd fuel k d now [user; lit "chkexpiry"] buf (mkSrc [] plan)) (fun '(rv, out) =>
    match out with Some n => Ok (rv, Some n) | None => Ok (PAM_AUTH_ERR, None) end)
  end.

(** * The module *)
(** Circumstances of a call: whether the shadow file may be tried (PAM_UNIX_TRY_GETSPNAM) and read, the time, the
    outcomes of running the helper and of allocations, in the order noted at each use. The databases do not change
    during a call. *)
Record uenv := mkE { e_try : bool; e_priv : bool; e_now : Z; e_how : nat -> running; e_mem : nat -> bool }.
(** Turns allowed to the reading loops of the helper. *)
Variable fuel : nat.

(** _unix_verify_user, modules/pam_unix/support.c:866-901; [days] is *daysleft on entry. get_account_info gives no other
    codes than the three handled. Helper run 0. *)
Definition verify_user (e : uenv) (d : db) (ctrl : N) (name : cstr) (days : Z) : res (Z * Z) :=
  match account_info (e_try e) (e_priv e) d name with
  | (rv, _, sp) =>
    if rv =? PAM_USER_UNKNOWN then Ok (PAM_USER_UNKNOWN, days)
    else if rv =? RUN_HELPER then
      bind (run_verify fuel (e_how e 0%nat) d (e_now e) name) (fun '(rv, out) =>
      let days := match out with Some n => n | None => days end in
      if (rv =? PAM_AUTHINFO_UNAVAIL) && on BROKEN_SHADOW ctrl then Ok (PAM_SUCCESS, days) else Ok (rv, days))
    else match sp with
         | None => Ok (PAM_SUCCESS, days)
         | Some s => shadow_expiry (e_now e) s
         end
  end.

(** The message for the user, pam_sm_acct_mgmt, modules/pam_unix/pam_unix_acct.c:227-289. *)
Inductive remark := RAcctExpired | RChangeNow (enforced : bool) | RPwExpired | RWarn (days : Z).
(** pam_sm_acct_mgmt, modules/pam_unix/pam_unix_acct.c:188-294. [user] is PAM_USER; [authrv] the value kept by
    pam_sm_authenticate ("unix_setcred_return"), if any. *)
Definition acct_mgmt (e : uenv) (d : db) (ctrl : N) (user : option cstr) (authrv : option Z) : res (Z * option remark) :=
  match user with
  | None => Ok (PAM_USER_UNKNOWN, None)
  | Some user =>
    bind (verify_user e d ctrl user (-1)) (fun '(rv, days) =>
    let authok := match authrv with Some v => v =? PAM_SUCCESS | None => false end in
    let rv := if on NO_PASS_EXPIRY ctrl && negb authok && ((rv =? PAM_NEW_AUTHTOK_REQD) || (rv =? PAM_AUTHTOK_EXPIRED)) then PAM_SUCCESS else rv in
    let say m := if off QUIET_ ctrl then Some m else None in
    if rv =? PAM_ACCT_EXPIRED then Ok (rv, say RAcctExpired)
    else if rv =? PAM_NEW_AUTHTOK_REQD then Ok (rv, say (RChangeNow (days =? 0)))
    else if rv =? PAM_AUTHTOK_EXPIRED then Ok (rv, say RPwExpired)
    else if (rv =? PAM_AUTHTOK_ERR) || (rv =? PAM_SUCCESS) then Ok (PAM_SUCCESS, if 0 <=? days then say (RWarn days) else None)
    else Ok (rv, None))
  end.

(** The name looked up by the second turn of the loop, modules/pam_unix/support.c:703. *)
Definition nonexistent : cstr := lit "pam_unix_non_existent:".
(** One turn of the loop of _unix_blankpasswd, modules/pam_unix/support.c:687-705: state is the name to look up, blank,
    nonexistent_check, salt. Turn [i] (1 or 2) uses helper run and allocation [i]. *)
Definition blank_turn (e : uenv) (d : db) (ctrl : N) (i : nat) (st : cstr * bool * bool * option cstr) : res (cstr * bool * bool * option cstr) :=
  let '(name, blank, check, salt) := st in
  let '(rv, _, hash) := hash_of (e_mem e i) (account_info (e_try e) (e_priv e) d name) in
  let salt := match hash with Some h => Some h | None => salt end in
  if rv =? RUN_HELPER then
    bind (run_helper fuel (e_how e i) d None ctrl name) (fun hv =>
    Ok (nonexistent, (if hv =? PAM_SUCCESS then check else blank), check, salt))
  else if rv =? PAM_USER_UNKNOWN then Ok (lit "root", blank, false, salt)
  else match salt with
       | Some [] => Ok (nonexistent, check, check, salt)
       | _ => Ok (nonexistent, blank, check, salt)
       end.
(** _unix_blankpasswd, modules/pam_unix/support.c:650-712. *)
Definition blankpasswd (e : uenv) (d : db) (ctrl : N) (name : cstr) : res bool :=
  bind (if on NULLRESETOK ctrl then
          bind (verify_user e d ctrl name 0) (fun '(rv, _) =>
          Ok (if rv =? PAM_NEW_AUTHTOK_REQD then set NULLOK ctrl else ctrl))
        else Ok ctrl) (fun ctrl =>
  if on NONULL ctrl then Ok false
  else
    bind (blank_turn e d ctrl 1 (name, false, true, None)) (fun st =>
    bind (blank_turn e d ctrl 2 st) (fun st =>
    let '(_, blank, _, _) := st in Ok blank))).

(** The failures kept in the handle, modules/pam_unix/support.c:270-281: the count under "-UN*X-FAIL-" and the name. *)
Definition failures := cstr -> option Z.
(** pam_set_data under the name of a user, modules/pam_unix/support.c:270-281. *)
Definition set_failures (f : failures) (name : cstr) (v : option Z) : failures := fun n => if streq n name then v else f n.
(** UNIX_MAX_RETRIES, modules/pam_unix/support.c:271. *)
Definition MAX_RETRIES : Z := 3.

(** The end of _unix_verify_password, modules/pam_unix/support.c:767-850; [memn]: the name of the data item could be
    made, [memf]: there is memory for the failure record; pam_set_data is taken to work (C20). *)
Definition record_failure (memn memf : bool) (f : failures) (name : cstr) (rv : Z) : Z * failures :=
  if rv =? PAM_SUCCESS then (rv, if memn then set_failures f name None else f)
  else if memn && memf then
    match f name with
    | Some n => ((if MAX_RETRIES <=? n + 1 then PAM_MAXTRIES else rv), set_failures f name (Some (n + 1)))
    | None => (rv, set_failures f name (Some 1))
    end
  else (rv, f).
(** _unix_verify_password, modules/pam_unix/support.c:714-864. Allocations: 3 copy of the hash, 4 in verify_pwd_hash, 5 name
    of the data item, 6 failure record; helper run 3. The failure delay is C21. *)
Definition verify_password (e : uenv) (d : db) (ctrl : N) (f : failures) (name p : cstr) : res (Z * failures) :=
  let '(rv, pw, hash) := hash_of (e_mem e 3%nat) (account_info (e_try e) (e_priv e) d name) in
  let p := firstn 512 p in
  let finish rv := Ok (record_failure (e_mem e 5%nat) (e_mem e 6%nat) f name rv) in
  if rv =? PAM_SUCCESS then
    match hash with
    | Some h => bind (verify_hash (e_mem e 4%nat) (Some p) h (off NONULL ctrl)) finish
    | None => UB
    end
  else if rv =? RUN_HELPER then bind (run_helper fuel (e_how e 3%nat) d (Some p) ctrl name) finish
  else if on AUDIT ctrl || on DEBUG ctrl then finish rv
  else match pw with None => finish rv | Some _ => Ok (rv, f) end.

(** pam_sm_authenticate, modules/pam_unix/pam_unix_auth.c:91-175. [guser], [gtok] are what pam_get_user and pam_get_authtok
    give. The result, the value kept for setcred and acct_mgmt (None: none kept), the failures. Allocation 7:
    ret_data. *)
Definition authenticate (e : uenv) (d : db) (ctrl : N) (f : failures) (guser gtok : Z * cstr) : res (Z * option Z * failures) :=
  let ret rv f := Ok (rv, Some rv, f) in
  if negb (e_mem e 7%nat) then Ok (PAM_BUF_ERR, None, f)
  else
    let '(urv, name) := guser in
    if negb (urv =? PAM_SUCCESS) then ret (if urv =? PAM_CONV_AGAIN then PAM_INCOMPLETE else urv) f
    else if match name with c :: _ => Ascii.eqb c "-"%char || Ascii.eqb c "+"%char | [] => false end then ret PAM_USER_UNKNOWN f
    else
      bind (blankpasswd e d ctrl name) (fun blank =>
      if (blank : bool) then ret PAM_SUCCESS f
      else
        let '(trv, p) := gtok in
        if negb (trv =? PAM_SUCCESS) then ret (if trv =? PAM_CONV_AGAIN then PAM_INCOMPLETE else trv) f
        else bind (verify_password e d ctrl f name p) (fun '(rv, f) => ret rv f)).

(** pam_sm_setcred, modules/pam_unix/pam_unix_auth.c:187-213: the value and what stays kept. *)
Definition setcred (ctrl : N) (kept : option Z) : Z * option Z :=
  match kept with
  | Some v => if on LIKE_AUTH ctrl then (v, None) else (PAM_SUCCESS, kept)
  | None => (PAM_SUCCESS, None)
  end.
End Hash.
