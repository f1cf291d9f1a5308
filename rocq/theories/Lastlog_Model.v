(** Model of pam_lastlog: modules/pam_lastlog/pam_lastlog.c. Logging, debug and the texts of dates and messages are left out; ll_time and tv_sec are 32-bit integers, UT_LINESIZE is 32, UT_HOSTSIZE 256 and
    UT_NAMESIZE 32, as in the headers of glibc for x86-64. *)
From Coq Require Import String Ascii List Arith ZArith Bool.
From Verif Require Import Base Num_Model Str_Model Opt_Model.
Import ListNotations.
Local Open Scope Z_scope.

(** A number kept in ll_time, a signed 32-bit integer, modules/pam_lastlog/pam_lastlog.c:406. *)
Definition int32 (x : Z) : Z := (x + 2 ^ 31) mod 2 ^ 32 - 2 ^ 31.
(** zero_extend_signed_to_ull, libpam/include/pam_inline.h:53-58, for a 32-bit tv_sec and a 64-bit time_t. *)
Definition zext32 (x : Z) : Z := x mod 2 ^ 32.
Definition zext64 (x : Z) : Z := x mod 2 ^ 64.
(** inactive= of _pam_auth_parse, modules/pam_lastlog/pam_lastlog.c:98-117. *)
Definition parse_inactive (d : Z) (a : cstr) : Z :=
  match skip_prefix (lit "inactive=") a with
  | None => d
  | Some s => match strtol s with (l, Some _) => if (0 <? l) && (l <? 100000) then l else d | _ => d end
  end.
(** The bits of ctrl but debug: date, host and line are shown, welcome, quiet, wtmp, btmp, update, unlimited, modules/pam_lastlog/pam_lastlog.c:73-82. *)
Record ctrl := mkCtrl { c_date : bool; c_host : bool; c_line : bool; c_never : bool; c_quiet : bool; c_wtmp : bool; c_btmp : bool; c_update : bool; c_unlimited : bool }.
(** One argument of _pam_session_parse, modules/pam_lastlog/pam_lastlog.c:129-156. *)
Definition parse_session (c : ctrl) (a : cstr) : ctrl :=
  let '(mkCtrl da ho li ne qu wt bt up un) := c in
  if streq a (lit "debug") then c
  else if streq a (lit "nodate") then mkCtrl false ho li ne qu wt bt up un
  else if streq a (lit "noterm") then mkCtrl da ho false ne qu wt bt up un
  else if streq a (lit "nohost") then mkCtrl da false li ne qu wt bt up un
  else if streq a (lit "silent") then mkCtrl da ho li ne true wt bt up un
  else if streq a (lit "never") then mkCtrl da ho li true qu wt bt up un
  else if streq a (lit "nowtmp") then mkCtrl da ho li ne qu false bt up un
  else if streq a (lit "noupdate") then mkCtrl da ho li ne qu false bt false un
  else if streq a (lit "showfailed") then mkCtrl da ho li ne qu wt true up un
  else if streq a (lit "unlimited") then mkCtrl da ho li ne qu wt bt up true
  else c.
(** _pam_session_parse, modules/pam_lastlog/pam_lastlog.c:123-166. *)
Definition session_parse (silent : bool) (args : list cstr) : ctrl :=
  let '(mkCtrl da ho li ne qu wt bt up un) := fold_left parse_session args (mkCtrl true true true false false true false true false) in
  if silent then mkCtrl da ho li ne true wt false up un else mkCtrl da ho li ne qu wt bt up un.

(** A record of lastlog or btmp: the time, the line and the host (texts up to a NUL or the size of the field), and the user of btmp. *)
Record record := mkRec { r_time : Z; r_line : cstr; r_host : cstr }.
Inductive opened := Opened | Missing | Unopened.
Inductive message := LastLogin (date : option Z) (host line : option cstr) | Welcome | LastFailed (date : option Z) (host line : option cstr) | Failures (n : nat).
(** What is done to the outside; SetLimit true lifts the limit of file sizes, SetLimit false sets the old one. *)
Inductive effect := Create | Lock (write : bool) (uid : Z) | Unlock (uid : Z) | Sleep | Say (m : message) | SetLimit (lift : bool) | Write (uid : Z) (r : record) | Wtmp (line user host : cstr).
(** Answers from outside: PAM_USER or pam_get_user, the uid, LASTLOG_UID_MAX of login.defs, opening lastlog for reading or for both, creating it, lseek (the second one is that of 396), the locks, the
    record (None if it is not there as a whole), localtime_r, memory for host and line (332, 344, 602, 614) and for the number (632-646), pam_info, the time, PAM_RHOST, PAM_TTY, the limit (None if
    it cannot be read, Some true if there is none), setting and resetting it, writing the record, btmp (its user, record). *)
Record env := mkEnv {
  e_user : option cstr; e_pw : cstr -> option Z; e_max : option cstr; e_open : bool -> opened; e_create : bool; e_seek : bool; e_seek2 : bool; e_rlock : nat -> bool; e_wlock : nat -> bool;
  e_read : Z -> option record; e_local : Z -> bool; e_mem : cstr -> bool; e_mem_n : bool; e_info : message -> Z; e_now : Z; e_rhost : option cstr; e_tty : option cstr; e_limit : option bool;
  e_lift : bool; e_restore : bool; e_write : bool; e_btmp : opened; e_failed : list (cstr * record)
}.
(** get_tty, modules/pam_lastlog/pam_lastlog.c:168-189. *)
Definition get_tty (E : env) : cstr :=
  let t := match e_tty E with Some t => t | None => [] end in
  match skip_prefix (lit "/dev/") t with Some s => s | None => t end.
(** MAX_UID_VALUE, modules/pam_lastlog/pam_lastlog.c:191. *)
Definition MAX_UID_VALUE : Z := 4294967295.
(** get_lastlog_uid_max, modules/pam_lastlog/pam_lastlog.c:193-220. *)
Definition uid_max (E : env) : Z :=
  match e_max E with
  | None => MAX_UID_VALUE
  | Some s => match strtoul 10 (rtrim s) with (v, Some []) => if MAX_UID_VALUE <=? v then MAX_UID_VALUE else v | _ => MAX_UID_VALUE end
  end.
(** last_login_open, modules/pam_lastlog/pam_lastlog.c:222-257. *)
Definition last_login_open (E : env) (update : bool) : bool * list effect :=
  match e_open E update with
  | Opened => (e_seek E, [])
  | Missing => if update then if e_create E then (e_seek E, [Create]) else (false, []) else (false, [])
  | Unopened => (false, [])
  end.
(** The loops around fcntl, modules/pam_lastlog/pam_lastlog.c:278-291 and 435-446, with [n] attempts left. *)
Fixpoint lock_loop (answer : nat -> bool) (n i : nat) : bool * list effect :=
  match n with
  | O => (false, [])
  | S n' =>
      if answer i then (true, [])
      else match n' with O => (false, []) | S _ => let '(r, w) := lock_loop answer n' (S i) in (r, Sleep :: w) end
  end.
(** The parts of a message about a login, modules/pam_lastlog/pam_lastlog.c:314-349 and 584-619: None without memory. *)
Definition parts (E : env) (c : ctrl) (r : record) : option (option Z * option cstr * option cstr) :=
  let date := if c_date c && e_local E (r_time r) then Some (r_time r) else None in
  let want b (s : cstr) := b && match s with [] => false | _ => true end in
  if want (c_host c) (r_host r) && negb (e_mem E (r_host r)) then None
  else if want (c_line c) (r_line r) && negb (e_mem E (r_line r)) then None
  else Some (date, if want (c_host c) (r_host r) then Some (r_host r) else None, if want (c_line c) (r_line r) then Some (r_line r) else None).
(** None of the parts, modules/pam_lastlog/pam_lastlog.c:352 and 622. *)
Definition nothing (p : option Z * option cstr * option cstr) : bool := match p with (None, None, None) => true | _ => false end.
(** last_login_read, modules/pam_lastlog/pam_lastlog.c:260-374: the result, lltime and the effects. A lock of another process does not hinder. *)
Definition last_login_read (E : env) (c : ctrl) (uid : Z) : Z * Z * list effect :=
  let '(l, w) := lock_loop (e_rlock E) 3 0 in
  let r := match e_read E uid with Some r => r | None => mkRec 0 [] [] end in
  let w := (w ++ (if l : bool then [Lock false uid] else []) ++ [Unlock uid])%list in
  let '(rv, m) :=
    if c_quiet c then (PAM_SUCCESS, [])
    else if negb (r_time r =? 0) then
      match parts E c r with
      | None => (PAM_BUF_ERR, [])
      | Some p => if nothing p then (PAM_SUCCESS, []) else let '(d, h, li) := p in (e_info E (LastLogin d h li), [Say (LastLogin d h li)])
      end
    else if c_never c then (e_info E Welcome, [Say Welcome])
    else (PAM_SUCCESS, []) in
  (rv, r_time r, (w ++ m)%list).
(** last_login_write, modules/pam_lastlog/pam_lastlog.c:376-505. The record is written as a whole or not at all. *)
Definition last_login_write (E : env) (c : ctrl) (uid : Z) (user : cstr) : Z * list effect :=
  if negb (e_seek2 E) then (PAM_SERVICE_ERR, [])
  else
    let host := match e_rhost E with Some h => h | None => [] end in
    let r := mkRec (int32 (e_now E)) (firstn 31 (get_tty E)) (firstn 255 host) in
    let '(l, w) := lock_loop (e_wlock E) 3 0 in
    if negb l then (PAM_SERVICE_ERR, w)
    else
      let lifted := c_unlimited c && match e_limit E with Some false => e_lift E | _ => false end in
      let rv := if negb (e_write E) then PAM_SERVICE_ERR else PAM_SUCCESS in
      let rv := if lifted && negb (e_restore E) then PAM_SERVICE_ERR else rv in
      (rv, (w ++ [Lock true uid] ++ (if lifted then [SetLimit true] else []) ++ (if e_write E then [Write uid r] else []) ++ (if lifted && e_restore E then [SetLimit false] else []) ++
            [Unlock uid] ++ (if c_wtmp c then [Wtmp (r_line r) user host] else []))%list).
(** last_login_date, modules/pam_lastlog/pam_lastlog.c:507-539. *)
Definition last_login_date (E : env) (c : ctrl) (uid : Z) (user : cstr) : Z * Z * list effect :=
  if uid_max E <? uid then (PAM_SUCCESS, 0, [])
  else
    let '(o, w) := last_login_open E (c_update c) in
    if negb o then (PAM_SERVICE_ERR, 0, w)
    else
      let '(rv, t, w1) := last_login_read E c uid in
      if negb (rv =? PAM_SUCCESS) then (rv, t, (w ++ w1)%list)
      else if c_update c then let '(rv, w2) := last_login_write E c uid user in (rv, t, (w ++ w1 ++ w2)%list)
      else (rv, t, (w ++ w1)%list).
(** The loop over btmp, modules/pam_lastlog/pam_lastlog.c:570-578: the number of failures and the last one. The number is no int here. *)
Definition count_failed (user : cstr) (t : Z) (fs : list (cstr * record)) : nat * option record :=
  fold_left (fun (a : nat * option record) f => if (zext64 t <=? zext32 (r_time (snd f))) && streq (fst f) (firstn 32 user) then (S (fst a), Some (snd f)) else a) fs (0%nat, None).
(** last_login_failed, modules/pam_lastlog/pam_lastlog.c:541-661. *)
Definition last_login_failed (E : env) (c : ctrl) (user : cstr) (t : Z) : Z * list effect :=
  match e_btmp E with
  | Missing => (PAM_SUCCESS, [])
  | Unopened => (PAM_SERVICE_ERR, [])
  | Opened =>
      match count_failed user t (e_failed E) with
      | (n, Some r) =>
          match parts E c r with
          | None => (PAM_BUF_ERR, [])
          | Some p =>
              let m := if nothing p then [] else let '(d, h, li) := p in [Say (LastFailed d h li)] in
              if e_mem_n E then (e_info E (Failures n), (m ++ [Say (Failures n)])%list) else (PAM_BUF_ERR, m)
          end
      | (_, None) => (PAM_SUCCESS, [])
      end
  end.
(** pam_auth, modules/pam_lastlog/pam_lastlog.c:664-730; ctrl has no bit but quiet there. *)
Definition auth (E : env) (args : list cstr) : Z * list effect :=
  let inactive := fold_left parse_inactive args 90 in
  match e_user E with
  | None => (PAM_USER_UNKNOWN, [])
  | Some user =>
      match e_pw E user with
      | None => (PAM_USER_UNKNOWN, [])
      | Some uid =>
          if (uid =? 0) || (uid_max E <? uid) then (PAM_SUCCESS, [])
          else
            let '(o, w) := last_login_open E false in
            if negb o then (PAM_IGNORE, w)
            else
              let '(rv, t, w1) := last_login_read E (mkCtrl false false false false true false false false false) uid in
              if negb (rv =? PAM_SUCCESS) then (PAM_IGNORE, (w ++ w1)%list)
              else if t =? 0 then (PAM_SUCCESS, (w ++ w1)%list)
              else if inactive <? Z.quot (e_now E - t) 86400 then (PAM_AUTH_ERR, (w ++ w1)%list) else (PAM_SUCCESS, (w ++ w1)%list)
      end
  end.
(** pam_sm_open_session, modules/pam_lastlog/pam_lastlog.c:755-803. *)
Definition open_session (E : env) (silent : bool) (args : list cstr) : Z * list effect :=
  let c := session_parse silent args in
  match e_user E with
  | None | Some [] => (PAM_USER_UNKNOWN, [])
  | Some user =>
      match e_pw E user with
      | None => (PAM_USER_UNKNOWN, [])
      | Some uid =>
          let '(rv, t, w) := last_login_date E c uid user in
          if c_btmp c && (rv =? PAM_SUCCESS) then let '(rv, w1) := last_login_failed E c user t in (rv, (w ++ w1)%list)
          else (rv, w)
      end
  end.
(** pam_sm_close_session, modules/pam_lastlog/pam_lastlog.c:805-820. *)
Definition close_session (E : env) (silent : bool) (args : list cstr) : Z * list effect :=
  if c_wtmp (session_parse silent args) then (PAM_SUCCESS, [Wtmp (get_tty E) [] []]) else (PAM_SUCCESS, []).
