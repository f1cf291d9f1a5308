(** Model of pam_sepermit: modules/pam_sepermit/pam_sepermit.c. Logging is left out. *)
From Coq Require Import String Ascii List Arith ZArith Bool.
From Verif Require Import Base Num_Model Str_Model Opt_Model.
Import ListNotations.
Local Open Scope Z_scope.

(** What one pass over /proc finds, modules/pam_sepermit/pam_sepermit.c:120-151 and 91-97: [Look ps] are the numbers found (without the process itself and names that
    are no number) with the text of their status file, None if it cannot be opened; [NoLook]: the directory cannot be opened or there is no memory for the table. *)
Inductive look := NoLook | Look (ps : list (Z * option (list ascii))).
(** What is done to the outside: a process killed, a lock taken and given back. *)
Inductive effect := Killed (pid : Z) | Locked (uid : Z) | Released (uid : Z).
(** [s_held]: the users whose lock file this process has locked; [s_data]: the uid in the data of the module; [s_time]: how often /proc was looked at. *)
Record state := mkState { s_held : list Z; s_data : option Z; s_time : nat; s_trace : list effect }.
(** Answers from outside: the user name (414), the configuration files (292), whether the first one is missing (404; [e_vendor]: a vendor file is compiled in),
    SELinux enabled and enforcing (419, 420), the SELinux user (427), group membership (325), geteuid() == 0 (364), /proc/self/loginuid (183-191), the uid of the
    user (240), the passes over /proc, the lock file opened (252), locked by another process (261), memory (266) and room for the data (275; only used if there is none yet). *)
Record env := mkEnv {
  e_user : option cstr; e_file : cstr -> option (list ascii); e_missing : bool; e_vendor : bool; e_enabled : bool; e_enforcing : bool; e_seuser : option cstr;
  e_group : cstr -> cstr -> bool; e_root : bool; e_login : option (list ascii); e_uid : cstr -> option Z; e_look : nat -> look;
  e_open : bool; e_other : Z -> bool; e_mem : bool; e_setdata : bool
}.

(** sscanf(buf, "Uid:\t%d", &puid), modules/pam_sepermit/pam_sepermit.c:100: no match (0), a number (as a uid_t), or the end of the text before the number (EOF, which is not 0). *)
Inductive scan := NoMatch | Value (v : Z) | Eof.
Definition scan_uid (line : list ascii) : scan :=
  match skip_prefix (lit "Uid:") (cut line) with
  | Some s => match strtol s with
              | (v, Some _) => Value (v mod 2 ^ 32)
              | (_, None) => match skip_spaces s with [] => Eof | _ => NoMatch end
              end
  | None => if is_prefix (cut line) (lit "Uid:") then Eof else NoMatch
  end.
(** The lines of match_process_uid, modules/pam_sepermit/pam_sepermit.c:99-104; after EOF the number that is compared was never written. *)
Fixpoint match_lines (lines : list (list ascii)) (uid : Z) : res bool :=
  match lines with
  | [] => Ok false
  | l :: ls => match scan_uid l with NoMatch => match_lines ls uid | Value v => Ok (v =? uid) | Eof => UB end
  end.
(** match_process_uid, modules/pam_sepermit/pam_sepermit.c:82-108; memory for the name of the file is taken to be there. *)
Definition match_process_uid (status : option (list ascii)) (uid : Z) : res bool :=
  match status with None => Ok false | Some t => match_lines (lines_of t) uid end.
(** The loop of check_running over the table, modules/pam_sepermit/pam_sepermit.c:153-166: the processes of the user. *)
Fixpoint running (ps : list (Z * option (list ascii))) (uid : Z) : res (list Z) :=
  match ps with
  | [] => Ok []
  | (pid, status) :: ps =>
      bind (match_process_uid status uid) (fun m => bind (running ps uid) (fun r => Ok (if m then pid :: r else r)))
  end.
(** check_running, modules/pam_sepermit/pam_sepermit.c:110-170; the number of processes, -1 after an error. *)
Definition check_running (E : env) (st : state) (uid : Z) (killall : bool) : res (Z * state) :=
  let st' tr := mkState (s_held st) (s_data st) (S (s_time st)) (s_trace st ++ tr)%list in
  match e_look E (s_time st) with
  | NoLook => Ok (-1, st' [])
  | Look ps => bind (running ps uid) (fun r => Ok (Z.of_nat (length r), st' (if killall then map Killed r else [])))
  end.
(** get_loginuid, modules/pam_sepermit/pam_sepermit.c:176-204; 2^32 - 1 is (uid_t) -1. After ERANGE strtoul gives ULONG_MAX, which is -1 as well. *)
Definition get_loginuid (t : option (list ascii)) : Z :=
  match t with
  | None | Some [] => 2 ^ 32 - 1
  | Some t => match strtoul 10 (cut (firstn 23 t)) with (v, Some _) => v mod 2 ^ 32 | (_, None) => 2 ^ 32 - 1 end
  end.
(** The lock on the file of a user given back: F_UNLCK, or any descriptor of the file closed (fcntl(2)), modules/pam_sepermit/pam_sepermit.c:225-226, 263, 268. *)
Definition drop_lock (st : state) (uid : Z) : state :=
  mkState (filter (fun u => negb (u =? uid)) (s_held st)) (s_data st) (s_time st) (s_trace st ++ [Released uid])%list.
(** The loop of sepermit_unlock, modules/pam_sepermit/pam_sepermit.c:222-223. *)
Fixpoint kill_loop (fuel : nat) (E : env) (st : state) (uid : Z) : res state :=
  match fuel with
  | O => OutOfFuel
  | S fuel => bind (check_running E st uid true) (fun '(n, st) => if 0 <? n then kill_loop fuel E st uid else Ok st)
  end.
(** sepermit_unlock, modules/pam_sepermit/pam_sepermit.c:206-228. *)
Definition sepermit_unlock (fuel : nat) (E : env) (st : state) (uid : Z) : res state :=
  bind (if uid =? 0 then Ok st else kill_loop fuel E st uid) (fun st => Ok (drop_lock st uid)).
(** pam_set_data with the cleanup of this module, libpam/pam_data.c:60-112. *)
Definition set_data (fuel : nat) (E : env) (st : state) (uid : Z) : res state :=
  match s_data st with
  | Some old => bind (sepermit_unlock fuel E st old) (fun st => Ok (mkState (s_held st) (Some uid) (s_time st) (s_trace st)))
  | None => Ok (if e_setdata E then mkState (s_held st) (Some uid) (s_time st) (s_trace st) else st)
  end.
(** sepermit_lock, modules/pam_sepermit/pam_sepermit.c:230-277; true is 0, false is -1. *)
Definition sepermit_lock (fuel : nat) (E : env) (st : state) (user : cstr) : res (bool * state) :=
  match e_uid E user with
  | None => Ok (false, st)
  | Some uid =>
      bind (check_running E st uid false) (fun '(n, st) =>
        if 0 <? n then Ok (false, st)
        else if negb (e_open E) then Ok (false, st)
        else if e_other E uid then Ok (false, drop_lock st uid)
        else
          let st := mkState (uid :: s_held st) (s_data st) (s_time st) (s_trace st ++ [Locked uid])%list in
          if negb (e_mem E) then Ok (false, drop_lock st uid)
          else bind (set_data fuel E st uid) (fun st => Ok (true, st)))
  end.

(** The first word of a line against the user, modules/pam_sepermit/pam_sepermit.c:320-345. *)
Definition selected (E : env) (user : cstr) (word : cstr) : bool :=
  match word with
  | "@"%char :: g => e_group E user g
  | "%"%char :: s => match e_seuser E with None => false | Some seuser => streq seuser s end
  | _ => streq user word
  end.
(** The lines, modules/pam_sepermit/pam_sepermit.c:299-356: None if none matches, otherwise the options exclusive and ignore of the first that does. *)
Fixpoint match_entries (E : env) (user : cstr) (lines : list (list ascii)) : res (option (bool * bool)) :=
  match lines with
  | [] => Ok None
  | l :: ls =>
      match cut l with
      | "#"%char :: _ => match_entries E user ls
      | s =>
          match rtrim (skip_spaces s) with
          | [] => match_entries E user ls
          | body =>
              match strtok (lit ":") body with
              | None => UB
              | Some (word, rest) =>
                  if selected E user word then
                    let opts := strtoks (lit ":") rest in
                    Ok (Some (existsb (fun o => streq o (lit "exclusive")) opts, existsb (fun o => streq o (lit "ignore")) opts))
                  else match_entries E user ls
              end
          end
      end
  end.
(** sepermit_match and the end of pam_sepermit, modules/pam_sepermit/pam_sepermit.c:280-372 and 444-451. *)
Definition decide (fuel : nat) (E : env) (st : state) (cfg user : cstr) : res (Z * state) :=
  let enforcing := e_enabled E && e_enforcing E in
  match e_file E cfg with
  | None => Ok (PAM_SERVICE_ERR, st)
  | Some text =>
      bind (match_entries E user (lines_of text)) (fun m =>
        match m with
        | None => Ok (PAM_IGNORE, st)
        | Some (exclusive, ignore) =>
            if negb enforcing then Ok (PAM_AUTH_ERR, st)
            else
              let sense := if ignore then PAM_IGNORE else PAM_SUCCESS in
              if e_root E && exclusive && (get_loginuid (e_login E) =? 2 ^ 32 - 1) then
                bind (sepermit_lock fuel E st user) (fun '(ok, st) => Ok (if ok then sense else PAM_AUTH_ERR, st))
              else Ok (sense, st)
        end)
  end.
(** The configuration file, modules/pam_sepermit/pam_sepermit.c:387-409; the paths are those of a build with the usual prefix. *)
Definition config (E : env) (args : list cstr) : cstr :=
  match fold_left (fun c a => if streq a (lit "debug") then c else match skip_prefix (lit "conf=") a with Some f => Some f | None => c end) args None with
  | Some f => f
  | None => if e_vendor E && e_missing E then lit "/usr/etc/security/sepermit.conf" else lit "/etc/security/sepermit.conf"
  end.
(** pam_sepermit, which is pam_sm_authenticate and pam_sm_acct_mgmt, modules/pam_sepermit/pam_sepermit.c:374-452 and 461-473. *)
Definition pam_sepermit (fuel : nat) (E : env) (st : state) (args : list cstr) : res (Z * state) :=
  match e_user E with
  | None | Some [] => Ok (PAM_USER_UNKNOWN, st)
  | Some user => decide fuel E st (config E args) user
  end.
(** pam_end, libpam/pam_data.c:145-164: the data are cleaned up. *)
Definition finish (fuel : nat) (E : env) (st : state) : res state :=
  match s_data st with
  | None => Ok st
  | Some uid => bind (sepermit_unlock fuel E st uid) (fun st => Ok (mkState (s_held st) None (s_time st) (s_trace st)))
  end.
