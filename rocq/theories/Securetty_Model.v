(** Model of modules/pam_securetty/pam_securetty.c: root only from the terminals in a list. Logging is left out. *)
From Coq Require Import String Ascii List Arith ZArith Bool.
From Verif Require Import Base Num_Model Str_Model Opt_Model.
Import ListNotations.
Local Open Scope Z_scope.

(** stat: an error (is it ENOENT) or the two properties looked at, writable by others and regular;
    modules/pam_securetty/pam_securetty.c:111-137. *)
Inductive statres := SErr (enoent : bool) | SOk (other_writes regular : bool).
(** What the module learns from outside: pam_get_user and the name (line 86), the number of a known user (93), the item PAM_TTY
    (100-102), stat (111-114), and the contents of a file that fopen can open (146, 173, 211);
    modules/pam_securetty/pam_securetty.c. Simplification: reading an open file does not fail. *)
Record env := mkEnv { e_get_user : Z * cstr; e_uid : cstr -> option Z; e_tty : option cstr; e_stat : cstr -> statres; e_open : cstr -> option (list ascii) }.

(** SECURETTY_FILE, modules/pam_securetty/pam_securetty.c:33. *)
Definition securetty_file : cstr := lit "/etc/securetty".
(** CMDLINE_FILE, modules/pam_securetty/pam_securetty.c:38. *)
Definition cmdline_file : cstr := lit "/proc/cmdline".
(** CONSOLEACTIVE_FILE, modules/pam_securetty/pam_securetty.c:39. *)
Definition active_file : cstr := lit "/sys/class/tty/console/active".

(** _pam_parse, modules/pam_securetty/pam_securetty.c:41-61; only noconsole has an effect besides logging. *)
Definition noconsole (args : list cstr) : bool := existsb (fun a => streq a (lit "noconsole")) args.

(** The loop over the lines, modules/pam_securetty/pam_securetty.c:158-165: is retval 0 at the end. ptname starts with p when it is
    not empty, a copy of at most 255 characters of pts/ and the name. *)
Definition listed (tty : cstr) (text : list ascii) : bool :=
  let ptname := match tty with c :: _ => if isdigit c then firstn 255 (lit "pts/" ++ tty) else [] | [] => [] end in
  existsb (fun l => streq (chomp [c_nl] l) tty || (match ptname with [] => false | _ => true end && streq ptname tty)) (lines_of text).

(** What may follow the name on the command line, modules/pam_securetty/pam_securetty.c:198. *)
Definition ends (e : cstr) : bool :=
  match e with [] => true | c :: _ => Ascii.eqb c ","%char || Ascii.eqb c " "%char || Ascii.eqb c c_nl end.

(** The loop over the command line, modules/pam_securetty/pam_securetty.c:186-202. [prev] is p[-1], None when p is line. The place p + 8 is
    beyond the end of the string when that is too short: UB. Simplification: bytes after a NUL in the line count as not there. *)
Fixpoint console_loop (fuel : nat) (tty : cstr) (prev : option ascii) (p : cstr) : res bool :=
  match fuel with
  | O => OutOfFuel
  | S fuel =>
      let next :=
        match p with
        | [] => UB
        | c :: q => match strstr (lit "console=") q with
                    | None => Ok false
                    | Some (a, p') => console_loop fuel tty (Some (last (c :: a) NUL)) p'
                    end
        end in
      if match prev with None => false | Some c => negb (Ascii.eqb c " "%char) end then next
      else if Nat.ltb (length p) 8 then UB
      else match skip_prefix tty (skipn 8 p) with
           | None => next
           | Some e => if ends e then Ok true else next
           end
  end.

(** The kernel's command line, modules/pam_securetty/pam_securetty.c:172-205: the first line, if there is one. *)
Definition console (E : env) (tty : cstr) : res bool :=
  match e_open E cmdline_file with
  | None => Ok false
  | Some text => match lines_of text with
                 | [] => Ok false
                 | l :: _ => console_loop (S (length (cut l))) tty None (cut l)
                 end
  end.

(** The active consoles, modules/pam_securetty/pam_securetty.c:208-240. *)
Definition active (E : env) (tty : cstr) : bool :=
  match e_open E active_file with
  | None => false
  | Some text => match lines_of text with
                 | [] => false
                 | l :: _ => existsb (fun w => streq w tty) (fields " "%char (chomp [c_nl] l))
                 end
  end.

(** Which list is used, modules/pam_securetty/pam_securetty.c:111-135: None is the early PAM_SUCCESS. [vendor] is SECURETTY2_FILE if the
    module is built with it. *)
Definition which (E : env) (vendor : option cstr) : option (cstr * (bool * bool)) :=
  match e_stat E securetty_file with
  | SOk w r => Some (securetty_file, (w, r))
  | SErr enoent =>
      match vendor with
      | Some f => if enoent then match e_stat E f with SOk w r => Some (f, (w, r)) | SErr _ => None end else None
      | None => None
      end
  end.

(** securetty_perform_check, modules/pam_securetty/pam_securetty.c:63-261, with the options of line 271. *)
Definition securetty (E : env) (vendor : option cstr) (args : list cstr) : res Z :=
  let '(r, user) := e_get_user E in
  if negb (r =? PAM_SUCCESS) then Ok (if r =? PAM_CONV_AGAIN then PAM_INCOMPLETE else r)
  else
    let uid := e_uid E user in
    if match uid with Some u => negb (u =? 0) | None => false end then Ok PAM_SUCCESS
    else match e_tty E with
    | None => Ok PAM_SERVICE_ERR
    | Some t =>
        let tty := match skip_prefix (lit "/dev/") t with Some s => s | None => t end in
        match which E vendor with
        | None => Ok PAM_SUCCESS
        | Some (f, (w, r)) =>
            if w || negb r then Ok PAM_AUTH_ERR
            else match e_open E f with
            | None => Ok PAM_SERVICE_ERR
            | Some text =>
                bind (if listed tty text then Ok true
                      else if noconsole args then Ok false
                      else bind (console E tty) (fun b => Ok (b || active E tty)))
                  (fun b => Ok (if b then PAM_SUCCESS else match uid with None => PAM_USER_UNKNOWN | Some _ => PAM_AUTH_ERR end))
            end
        end
    end.
