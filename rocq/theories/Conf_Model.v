(** Model of libpam/pam_handlers.c: reading configuration files into handler tables.
    PAM_READ_BOTH_CONFS, PAM_LOCKING and VENDORDIR are not defined in the modelled build.
    Allocation is assumed to succeed; lines are shorter than INT_MAX bytes (so _pam_mkargv does not
    report an error, see Tok_Props.v). *)
From Coq Require Import String Ascii List Arith ZArith Bool.
From Verif Require Import Base Dispatch_Model Ctl_Model Tok_Model Line_Model.
Import ListNotations.
Local Open Scope Z_scope.

(** PAM_T_ constants, libpam/pam_handlers.c:38-42; PAM_T_ANY is None of an option. *)
Inductive mtype := T_AUTH | T_SESS | T_ACCT | T_PASS.
(** Comparison of PAM_T_ constants, libpam/pam_handlers.c:141-142. *)
Definition mtype_eqb (a b : mtype) : bool :=
  match a, b with T_AUTH, T_AUTH | T_SESS, T_SESS | T_ACCT, T_ACCT | T_PASS, T_PASS => true | _, _ => false end.

(** struct service (the conf and other tables), libpam/pam_private.h:92-100; [c_next] is the next
    unused cell for a cached_retval, see [h_cell].  Simplification: the array of loaded modules is
    not kept; it makes each module path be opened once, which is why [symbol] below is a function of the path. *)
Record cst := mkC { c_conf : htable; c_other : htable; c_next : nat }.
(** struct handlers with six empty chains, libpam/pam_private.h:83-90. *)
Definition no_handlers : htable := mkT [] [] [] [] [] [].
(** After _pam_free_handlers, libpam/pam_handlers.c:869-915. *)
Definition empty_cst : cst := mkC no_handlers no_handlers 0.

(** libpam/pam_handlers.c:758-785, 811-814: append to the first list of a type ... *)
Definition push1 (t : htable) (ty : mtype) (h : handler) : htable :=
  match ty with
  | T_AUTH => mkT (t_auth t ++ [h]) (t_setcred t) (t_acct t) (t_open t) (t_close t) (t_chauthtok t)
  | T_SESS => mkT (t_auth t) (t_setcred t) (t_acct t) (t_open t ++ [h]) (t_close t) (t_chauthtok t)
  | T_ACCT => mkT (t_auth t) (t_setcred t) (t_acct t ++ [h]) (t_open t) (t_close t) (t_chauthtok t)
  | T_PASS => mkT (t_auth t) (t_setcred t) (t_acct t) (t_open t) (t_close t) (t_chauthtok t ++ [h])
  end.
(** ... and to the second one, libpam/pam_handlers.c:832-837. *)
Definition push2 (t : htable) (ty : mtype) (h : handler) : htable :=
  match ty with
  | T_AUTH => mkT (t_auth t) (t_setcred t ++ [h]) (t_acct t) (t_open t) (t_close t) (t_chauthtok t)
  | T_SESS => mkT (t_auth t) (t_setcred t) (t_acct t) (t_open t) (t_close t ++ [h]) (t_chauthtok t)
  | _ => t
  end.

(** sym and sym2, libpam/pam_handlers.c:758-785. *)
Definition sym1 (ty : mtype) : string :=
  match ty with
  | T_AUTH => "pam_sm_authenticate" | T_SESS => "pam_sm_open_session"
  | T_ACCT => "pam_sm_acct_mgmt" | T_PASS => "pam_sm_chauthtok"
  end.
(** sym2, libpam/pam_handlers.c:758-785: the second function of a type, if it has one. *)
Definition sym2 (ty : mtype) : option string :=
  match ty with T_AUTH => Some "pam_sm_setcred"%string | T_SESS => Some "pam_sm_close_session"%string | _ => None end.

(** strrchr(s, c) + 1, or the whole string; libpam/pam_handlers.c:580-586. *)
Fixpoint after_last (c : ascii) (s : cstr) : cstr :=
  match s with
  | [] => []
  | x :: t => if existsb (Ascii.eqb c) t then after_last c t else if Ascii.eqb x c then t else s
  end.
(** The part before strrchr(s, c), or the whole string; libpam/pam_handlers.c:591-593. *)
Fixpoint before_last (c : ascii) (s : cstr) : cstr :=
  match s with
  | [] => []
  | x :: t => if existsb (Ascii.eqb c) t then x :: before_last c t else if Ascii.eqb x c then [] else s
  end.

(** extract_modulename, libpam/pam_handlers.c:577-602. *)
Definition extract_modulename (p : cstr) : option cstr :=
  let r := before_last "."%char (after_last "/"%char p) in
  match r with
  | [] => None
  | _ => if streq r (lit "?") then None else Some r
  end.

(** The service name pam_start keeps, libpam/pam_start.c:69-89. *)
Definition start_service (name : cstr) : cstr := map tolower (after_last "/"%char name).
(** The service name pam_set_item keeps, libpam/pam_item.c:41-58. *)
Definition set_service (name : cstr) : cstr := map tolower name.

(** UNKNOWN_MODULE, libpam/pam_handlers.c:24. *)
Definition unknown_module : cstr := lit "<*unknown module*>".

Section Conf.
(** fopen(path, "r"): NULL, or what getline delivers for the stream (see Line_Model.v). *)
Variable fs : cstr -> option (list (list ascii)).
(** dlopen (with the $ISA retry) and dlsym, libpam/pam_handlers.c:604-699, 796-807: the function a
    module file has under a name, None when the file cannot be loaded or lacks it. *)
Variable symbol : cstr -> string -> option nat.
(** DEFAULT_MODULE_PATH. *)
Variable module_dir : cstr.
(** pamh->confdir and pamh->service_name. *)
Variable confdir : option cstr.
(** pamh->service_name, libpam/pam_private.h:149-180. *)
Variable service : cstr.

(** _pam_add_handler, libpam/pam_handlers.c:701-866.  A NULL mod_name is the empty list (a real one
    is never empty).  false = PAM_ABORT. *)
Definition add_handler (ht : htype) (other : bool) (level : nat) (ty : mtype) (actions : list Z)
  (mod_path : option cstr) (args : list cstr) (s : cst) : bool * cst :=
  let func sym :=
    match ht, mod_path with
    | (HT_MODULE | HT_SILENT), Some p =>
        symbol (match p with c :: _ => if Ascii.eqb c c_slash then p else module_dir ++ p | [] => module_dir ++ p end) sym
    | _, _ => None
    end in
  let name := extract_modulename (match mod_path with Some p => p | None => unknown_module end) in
  let nm := match name with Some n => n | None => [] end in
  let n := c_next s in
  let on f := if other then mkC (c_conf s) (f (c_other s)) else mkC (f (c_conf s)) (c_other s) in
  let h1 := mkH ht (func (sym1 ty)) actions n n args nm level in
  match name with
  | None => (false, on (fun t => push1 t ty h1) (S n))
  | Some _ =>
      match sym2 ty with
      | None => (true, on (fun t => push1 t ty h1) (S n))
      | Some s2 =>
          let h2 := mkH ht (func s2) actions (S n) n args nm level in
          (true, on (fun t => push2 (push1 t ty h1) ty h2) (S (S n)))
      end
  end.

(** _pam_open_config_file, libpam/pam_handlers.c:292-352. *)
Definition open_config (name : cstr) : option (list (list ascii)) :=
  match name with
  | c :: _ =>
      if Ascii.eqb c c_slash then fs name
      else match confdir with
           | Some d => fs (d ++ lit "/" ++ name)
           | None => match fs (lit "/etc/pam.d/" ++ name) with
                     | Some f => Some f
                     | None => fs (lit "/usr/lib/pam.d/" ++ name)
                     end
           end
  | [] => match confdir with
          | Some d => fs (d ++ lit "/")
          | None => match fs (lit "/etc/pam.d/") with
                    | Some f => Some f
                    | None => fs (lit "/usr/lib/pam.d/")
                    end
          end
  end.

(** libpam/pam_handlers.c:122-129. *)
Definition type_of (t : cstr) : option mtype :=
  if strcaseeq (lit "auth") t then Some T_AUTH
  else if strcaseeq (lit "session") t then Some T_SESS
  else if strcaseeq (lit "account") t then Some T_ACCT
  else if strcaseeq (lit "password") t then Some T_PASS
  else None.

(** libpam/pam_handlers.c:108-139: module_type and handler_type from the type field. *)
Definition type_field (req : option mtype) (tok : option cstr) : mtype * htype :=
  let sensitive := match req with Some t => t | None => T_AUTH end in
  match tok with
  | None => (sensitive, HT_MUST_FAIL)
  | Some t =>
      let (ht, t) := match t with
                     | c :: t' => if Ascii.eqb c "-"%char then (HT_SILENT, t') else (HT_MODULE, t)
                     | [] => (HT_MODULE, t)
                     end in
      match type_of t with
      | Some ty => (ty, ht)
      | None => (sensitive, HT_MUST_FAIL)
      end
  end.

(** One round of the loop in _pam_parse_conf_file, libpam/pam_handlers.c:72-287.  [load] is the call
    of _pam_load_conf_file with include_level + 1.  Ok (false, _) = return PAM_ABORT.
    UB: strcasecmp(NULL, ...) when a line without a service field were met. *)
Definition parse_line (load : option cstr -> cstr -> mtype -> nat -> cst -> res (bool * cst))
  (known : option cstr) (req : option mtype) (level : nat) (line : cstr) (s : cst) : res (bool * cst) :=
  let (svc, next) := match known with
                     | Some k => (Some k, Some line)
                     | None => tokenize_next (Some line)
                     end in
  match svc with
  | None => UB
  | Some this =>
    let other := strcaseeq this (lit "other") in
    if negb (strcaseeq this service || other) then Ok (true, s)
    else
    let (tok, next) := tokenize_next next in
    let (ty, ht) := type_field req tok in
    if match req with Some r => negb (mtype_eqb ty r) | None => false end then Ok (true, s)
    else
    let (tok, next) := tokenize_next next in
    let ht := match tok with None => HT_MUST_FAIL | Some _ => ht end in
    bind (match tok with None => Ok (CtlTable (all_actions ACT_BAD)) | Some t => control_of t end) (fun ctl =>
    let (tok, next) := tokenize_next next in
    let include sub :=
      let (ok, s) := if sub : bool then add_handler HT_SUBSTACK other level ty (all_actions ACT_UNDEF) tok [] s else (true, s) in
      if ok then
        bind (load tok this ty (if sub then S level else level) s) (fun '(ok, s) =>
        if ok then Ok (true, s)
        else Ok (add_handler HT_MUST_FAIL other level ty (all_actions ACT_BAD) None [] s))
      else Ok (false, s) in
    match ctl with
    | CtlInclude => include false
    | CtlSubstack => include true
    | CtlTable tab =>
        let args := match next with Some n => mkargv n | None => [] end in
        match tok with
        | Some m => Ok (add_handler ht other level ty tab (Some m) args s)
        | None => Ok (add_handler HT_MUST_FAIL other level ty tab None args s)
        end
    end)
  end.

(** The loop of _pam_parse_conf_file, libpam/pam_handlers.c:71-289, over the lines the assembler
    delivers; [ok] is false when it finally reports an error. *)
Fixpoint parse_lines (load : option cstr -> cstr -> mtype -> nat -> cst -> res (bool * cst))
  (known : option cstr) (req : option mtype) (level : nat) (lines : list cstr) (ok : bool) (s : cst) : res (bool * cst) :=
  match lines with
  | [] => Ok (ok, s)
  | l :: ls =>
      bind (parse_line load known req level l s) (fun '(go, s) =>
      if go then parse_lines load known req level ls ok s else Ok (false, s))
  end.

(** _pam_load_conf_file, libpam/pam_handlers.c:354-402, at include level 16 - k. *)
Fixpoint load_conf (k : nat) (name : option cstr) (this : cstr) (ty : mtype) (level : nat) (s : cst) : res (bool * cst) :=
  match k with
  | O => Ok (false, s)
  | S k' =>
      match name with
      | None => Ok (false, s)
      | Some n =>
          match open_config n with
          | None => Ok (false, s)
          | Some f => let (ls, ok) := file_lines c_space f in
                      parse_lines (load_conf k') (Some this) (Some ty) level ls ok s
          end
      end
  end.

(** _pam_parse_conf_file at include level 0, libpam/pam_handlers.c:54-290. *)
Definition parse_conf (known : option cstr) (f : list (list ascii)) (s : cst) : res (bool * cst) :=
  let (ls, ok) := file_lines c_space f in parse_lines (load_conf 15) known None 0 ls ok s.

(** _pam_init_handlers, libpam/pam_handlers.c:405-575, when nothing is loaded yet and service_name
    is not NULL.  [dir]: one of the configuration directories exists. *)
Definition init_handlers (dir : bool) : res (Z * cst) :=
  if match confdir with Some _ => true | None => dir end then
    bind (match open_config service with
          | Some f => bind (parse_conf (Some service) f empty_cst) (fun '(ok, s) => Ok (ok, ok, s))
          | None => Ok (true, false, empty_cst)
          end) (fun '(ok, something, s) =>
    if ok : bool then
      bind (match open_config (lit "other") with
            | Some f => bind (parse_conf (Some (lit "other")) f s) (fun '(ok, s) => Ok (ok, something || ok, s))
            | None => Ok (true, something, s)
            end) (fun '(ok, something, s) =>
      if ok && something then Ok (PAM_SUCCESS, s) else Ok (PAM_ABORT, s))
    else Ok (PAM_ABORT, s))
  else
    match fs (lit "/etc/pam.conf") with
    | None => Ok (PAM_ABORT, empty_cst)
    | Some f => bind (parse_conf None f empty_cst) (fun '(ok, s) =>
                if ok then Ok (PAM_SUCCESS, s) else Ok (PAM_ABORT, s))
    end.
End Conf.
