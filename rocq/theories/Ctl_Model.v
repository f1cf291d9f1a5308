(** Model of the control-field parser of libpam/pam_misc.c. *)
From Coq Require Import String Ascii List Arith ZArith Bool.
From Verif Require Import Base Dispatch_Model.
Import ListNotations.
Local Open Scope Z_scope.

(** _pam_token_actions, libpam/pam_tokens.h:23-30. *)
Definition token_actions : list cstr :=
  [lit "ignore"; lit "ok"; lit "done"; lit "bad"; lit "die"; lit "reset"].

(** _pam_token_returns, libpam/pam_tokens.h:37-73. *)
Definition token_returns : list cstr :=
  [lit "success"; lit "open_err"; lit "symbol_err"; lit "service_err"; lit "system_err"; lit "buf_err";
   lit "perm_denied"; lit "auth_err"; lit "cred_insufficient"; lit "authinfo_unavail"; lit "user_unknown";
   lit "maxtries"; lit "new_authtok_reqd"; lit "acct_expired"; lit "session_err"; lit "cred_unavail";
   lit "cred_expired"; lit "cred_err"; lit "no_module_data"; lit "conv_err"; lit "authtok_err";
   lit "authtok_recover_err"; lit "authtok_lock_busy"; lit "authtok_disable_aging"; lit "try_again";
   lit "ignore"; lit "abort"; lit "authtok_expired"; lit "module_unknown"; lit "bad_item"; lit "conv_again";
   lit "incomplete"; lit "default"].

(** "while (isspace((unsigned char) *tok) && *++tok);", libpam/pam_misc.c:260, 277, 284.
    The end of the list is the terminating NUL, for which isspace is false. *)
Fixpoint skip_space (s : cstr) : cstr :=
  match s with
  | c :: t => if isspace c then skip_space t else s
  | [] => []
  end.

(** The search loops of libpam/pam_misc.c:265-270 and 291-298: the first name that is a prefix
    of the string, with what follows it. *)
Fixpoint find_name (names : list cstr) (k : nat) (s : cstr) : option (nat * cstr) :=
  match names with
  | [] => None
  | n :: ns => if is_prefix n s then Some (k, skipn (length n) s) else find_name ns (S k) s
  end.

(** The do-while loop of libpam/pam_misc.c:314-327 from a digit on; [act] is the value so far.
    None = "expecting smaller jump number".  Both comparisons are before the arithmetic they
    guard, so no int overflow happens. *)
Fixpoint jump_number (act : Z) (s : cstr) : option (Z * cstr) :=
  match s with
  | c :: t =>
      if isdigit c then
        if INT_MAX / 10 <? act then None
        else if INT_MAX - digit_val c <? act * 10 then None
        else jump_number (act * 10 + digit_val c) t
      else Some (act, s)
  | [] => Some (act, [])
  end.

(** libpam/pam_misc.c:290-334: an action word or a jump. *)
Definition parse_action (s : cstr) : option (Z * cstr) :=
  match find_name token_actions 0 s with
  | Some (k, rest) => Some (- Z.of_nat k, rest)
  | None =>
      match s with
      | c :: _ =>
          if isdigit c then
            match jump_number 0 s with
            | Some (act, rest) => if act =? 0 then None else Some (act, rest)
            | None => None
            end
          else None
      | [] => None
      end
  end.

(** _pam_set_default_control, libpam/pam_misc.c:230-239. *)
Definition set_default (tab : list Z) (a : Z) : list Z :=
  map (fun x => if x =? ACT_UNDEF then a else x) tab.

(** libpam/pam_misc.c:336-342.  None = index outside the array (undefined behaviour). *)
Definition set_entry (tab : list Z) (ret : nat) (act : Z) : option (list Z) :=
  if (ret =? 32)%nat then Some (set_default tab act) else upd tab ret act.

(** libpam/pam_misc.c:255-343: the loop.  Ok None = parse_error. *)
Fixpoint control_loop (fuel : nat) (tab : list Z) (tok : cstr) : res (option (list Z)) :=
  match fuel with
  | O => OutOfFuel
  | S fuel' =>
    match skip_space tok with
    | [] => Ok (Some tab)
    | tok =>
      match find_name token_returns 0 tok with
      | None | Some (_, []) => Ok None
      | Some (ret, tok) =>
        match skip_space tok with
        | [] => Ok None
        | c :: tok =>
          if Ascii.eqb c c_eq then
            match skip_space tok with
            | [] => Ok None
            | tok =>
              match parse_action tok with
              | None => Ok None
              | Some (act, tok) =>
                match set_entry tab ret act with
                | Some tab' => control_loop fuel' tab' tok
                | None => UB
                end
              end
            end
          else Ok None
        end
      end
    end
  end.

(** A table of one action: the loops of libpam/pam_handlers.c:150-154 and libpam/pam_misc.c:351. *)
Definition all_actions (a : Z) : list Z := repeat a 32.

(** _pam_parse_control, libpam/pam_misc.c:250-353. *)
Definition parse_control (tab : list Z) (tok : cstr) : res (list Z) :=
  match control_loop (S (length tok)) tab tok with
  | Ok (Some tab') => Ok tab'
  | Ok None => Ok (all_actions ACT_BAD)
  | UB => UB
  | OutOfFuel => OutOfFuel
  end.

(** strcasecmp(a, b) == 0 (C library). *)
Definition strcaseeq (a b : cstr) : bool := streq (map tolower a) (map tolower b).

(** What the control field says, libpam/pam_handlers.c:148-198: an action table, or include/substack. *)
Inductive control := CtlTable (tab : list Z) | CtlInclude | CtlSubstack.

(** Writing the entries [ks] of a fresh table and then its default. *)
Definition keyword_table (success_and_reqd : Z) (ignore : option Z) (default : Z) : list Z :=
  set_default
    (map (fun i => if (i =? 0)%nat || (i =? 12)%nat then success_and_reqd
                   else if (i =? 25)%nat then match ignore with Some a => a | None => ACT_UNDEF end
                   else ACT_UNDEF) (seq 0 32)) default.

(** libpam/pam_handlers.c:148-198 for a present control token. *)
Definition control_of (tok : cstr) : res control :=
  if strcaseeq (lit "required") tok then Ok (CtlTable (keyword_table ACT_OK (Some ACT_IGNORE) ACT_BAD))
  else if strcaseeq (lit "requisite") tok then Ok (CtlTable (keyword_table ACT_OK (Some ACT_IGNORE) ACT_DIE))
  else if strcaseeq (lit "optional") tok then Ok (CtlTable (keyword_table ACT_OK None ACT_IGNORE))
  else if strcaseeq (lit "sufficient") tok then Ok (CtlTable (keyword_table ACT_DONE None ACT_IGNORE))
  else if strcaseeq (lit "include") tok then Ok CtlInclude
  else if strcaseeq (lit "substack") tok then Ok CtlSubstack
  else match parse_control (all_actions ACT_UNDEF) tok with
       | Ok tab => Ok (CtlTable (set_default tab ACT_BAD))
       | UB => UB
       | OutOfFuel => OutOfFuel
       end.
