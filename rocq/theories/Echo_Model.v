(** Model of modules/pam_echo/pam_echo.c. Logging is left out. *)
From Coq Require Import String Ascii List Arith ZArith Bool.
From Verif Require Import Base Str_Model Opt_Model Item_Model.
Import ListNotations.

(** A file named by file=, modules/pam_echo/pam_echo.c:172-203: it cannot be opened; fstat fails; or st_size and what pam_modutil_read
    reads of that many bytes, None on failure. *)
Inductive file := NoFile | NoStat | File (size : Z) (bytes : option (list ascii)).
(** What the module learns from outside, modules/pam_echo/pam_echo.c: pam_get_item (118), gethostname (111), files, malloc of the output
    (71) and of the contents (190). *)
Record env := mkEnv { e_item : Z -> Z * option cstr; e_host : option cstr; e_file : cstr -> file; e_out : bool; e_alloc : bool }.

(** A store at the end of the used part of a buffer of [size] bytes; undefined outside it. *)
Definition store (size : nat) (b : list ascii) (c : ascii) : res (list ascii) := if Nat.ltb (length b) size then Ok (b ++ [c])%list else UB.
(** The copying loop, modules/pam_echo/pam_echo.c:123-124 and 165-166, for a buffer of [size] bytes. *)
Fixpoint copy (size : nat) (s : cstr) (b : list ascii) : res (list ascii) :=
  match s with
  | [] => Ok b
  | c :: s => if Nat.ltb (length b) (size - 1) then bind (store size b c) (copy size s) else Ok b
  end.
(** The text of an escape, modules/pam_echo/pam_echo.c:85-122; None for the default case. *)
Definition escape (E : env) (k : ascii) : option cstr :=
  let item i := let '(r, v) := e_item E i in if (r =? PAM_SUCCESS)%Z then v else None in
  let str v := match v with Some v => v | None => lit "(null)" end in
  if Ascii.eqb k "H"%char then Some (str (item I_RHOST))
  else if Ascii.eqb k "h"%char then Some (str (e_host E))
  else if Ascii.eqb k "s"%char then Some (str (item I_SERVICE))
  else if Ascii.eqb k "t"%char then Some (str (item I_TTY))
  else if Ascii.eqb k "U"%char then Some (str (item I_RUSER))
  else if Ascii.eqb k "u"%char then Some (str (item I_USER))
  else None.
(** The loop of replace_and_print, modules/pam_echo/pam_echo.c:78-125; [size] is length. *)
Fixpoint replace (E : env) (size : nat) (p : cstr) (b : list ascii) : res (list ascii) :=
  match p with
  | [] => Ok b
  | c :: p' =>
      if Nat.ltb (length b) (size - 1) then
        if negb (Ascii.eqb c "%"%char) then bind (store size b c) (replace E size p')
        else match p' with
             | [] => bind (store size b c) (replace E size p')
             | k :: p'' => match escape E k with
                           | None => bind (store size b k) (replace E size p'')
                           | Some v => bind (copy size v b) (replace E size p'')
                           end
             end
      else Ok b
  end.
(** replace_and_print, modules/pam_echo/pam_echo.c:60-132: the result and the text given to pam_info. PAM_MAX_MSG_SIZE is 512,
    libpam/include/security/_pam_types.h:247. *)
Definition replace_and_print (E : env) (mesg : cstr) : res (Z * option cstr) :=
  if negb (e_out E) then Ok (PAM_BUF_ERR, None)
  else let size := length mesg + 512 in
       bind (replace E size mesg []) (fun b => bind (store size b NUL) (fun _ => Ok (PAM_SUCCESS, Some b))).

(** The loop over the arguments, modules/pam_echo/pam_echo.c:161-167; [first] for i = 0. *)
Fixpoint join (first : bool) (args : list cstr) (b : list ascii) : res (list ascii) :=
  match args with
  | [] => Ok b
  | a :: args =>
      if Nat.ltb (length b) 511 then bind (if first then Ok b else store 512 b " "%char) (fun b => bind (copy 512 a b) (join false args))
      else Ok b
  end.
(** The value of file=, modules/pam_echo/pam_echo.c:146-151. *)
Definition file_arg (f : option cstr) (a : cstr) : option cstr := match skip_prefix (lit "file=") a with Some v => Some v | None => f end.
(** pam_echo, modules/pam_echo/pam_echo.c:134-220; [silent] is flags & PAM_SILENT. *)
Definition echo (E : env) (silent : bool) (args : list cstr) : res (Z * option cstr) :=
  if silent then Ok (PAM_IGNORE, None)
  else match fold_left file_arg args None with
       | None | Some [] => bind (join true args []) (fun b => bind (store 512 b NUL) (fun _ => replace_and_print E b))
       | Some f =>
           match e_file E f with
           | NoFile | NoStat => Ok (PAM_IGNORE, None)
           | File n bytes =>
               if (n =? 0)%Z then Ok (PAM_IGNORE, None)
               else if (n <? 0)%Z || (INT_MAX <? n)%Z then Ok (PAM_BUF_ERR, None)
               else if negb (e_alloc E) then Ok (PAM_BUF_ERR, None)
               else match bytes with
                    | Some t =>
                        if (Z.of_nat (length t) =? n)%Z
                        then replace_and_print E (cut (if Ascii.eqb (last t NUL) c_nl then removelast t else t))
                        else Ok (PAM_IGNORE, None)
                    | None => Ok (PAM_IGNORE, None)
                    end
           end
       end.
(** pam_sm_authenticate, pam_sm_acct_mgmt, pam_sm_open_session, pam_sm_chauthtok, pam_sm_setcred and pam_sm_close_session,
    modules/pam_echo/pam_echo.c:222-265; [prelim] is flags & PAM_PRELIM_CHECK. *)
Inductive service := Auth | Acct | Open | Chauthtok | Setcred | Close.
(** See [service]. *)
Definition run (E : env) (sv : service) (prelim silent : bool) (args : list cstr) : res (Z * option cstr) :=
  match sv with
  | Auth | Acct | Open => echo E silent args
  | Chauthtok => if prelim then echo E silent args else Ok (PAM_IGNORE, None)
  | Setcred | Close => Ok (PAM_IGNORE, None)
  end.
