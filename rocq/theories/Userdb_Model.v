(** Model of pam_userdb (modules/pam_userdb/pam_userdb.c): authentication from a database of names and passwords. Messages are left out. *)
From Coq Require Import String Ascii List Arith ZArith Bool.
From Verif Require Import Base Str_Model Opt_Model Inline_Model.
Import ListNotations.
Local Open Scope Z_scope.

(** pam_str_skip_icase_prefix, libpam/include/pam_inline.h:84-97: what follows the prefix; None is NULL. *)
Definition skip_icase (p s : cstr) : option cstr := option_map (fun _ => skipn (length p) s) (skip_prefix (map tolower p) (map tolower s)).

(** The options: the bits of ctrl, modules/pam_userdb/pam_userdb.h:10-16, and database and cryptmode (None is NULL). *)
Record opts := mkO { o_icase : bool; o_dump : bool; o_key_only : bool; o_use_first : bool; o_try_first : bool; o_db : option cstr; o_crypt : option cstr }.
(** One argument, modules/pam_userdb/pam_userdb.c:94-133. debug and unknown_ok only matter for messages. *)
Definition parse_one (o : opts) (a : cstr) : opts :=
  if streq a (lit "debug") then o
  else if caseeq a (lit "icase") then mkO true (o_dump o) (o_key_only o) (o_use_first o) (o_try_first o) (o_db o) (o_crypt o)
  else if caseeq a (lit "dump") then mkO (o_icase o) true (o_key_only o) (o_use_first o) (o_try_first o) (o_db o) (o_crypt o)
  else if caseeq a (lit "unknown_ok") then o
  else if caseeq a (lit "key_only") then mkO (o_icase o) (o_dump o) true (o_use_first o) (o_try_first o) (o_db o) (o_crypt o)
  else if caseeq a (lit "use_first_pass") then mkO (o_icase o) (o_dump o) (o_key_only o) true (o_try_first o) (o_db o) (o_crypt o)
  else if caseeq a (lit "try_first_pass") then mkO (o_icase o) (o_dump o) (o_key_only o) (o_use_first o) true (o_db o) (o_crypt o)
  else match skip_icase (lit "db=") a with
       | Some v => mkO (o_icase o) (o_dump o) (o_key_only o) (o_use_first o) (o_try_first o) (match v with [] => None | _ => Some v end) (o_crypt o)
       | None =>
           match skip_icase (lit "crypt=") a with
           | Some v => mkO (o_icase o) (o_dump o) (o_key_only o) (o_use_first o) (o_try_first o) (o_db o) (Some v)
           | None => o
           end
       end.
(** _pam_parse, modules/pam_userdb/pam_userdb.c:86-139. *)
Definition parse (args : list cstr) : opts := fold_left parse_one args (mkO false false false false false None None).

(** A database: keys with their data in the order of db_firstkey and db_nextkey, modules/pam_userdb/pam_userdb.c:154-172. Keys and data are
    bytes, not strings. *)
Definition dbm := list (list ascii * list ascii).
(** db_fetch, modules/pam_userdb/pam_userdb.c:174-182. *)
Definition fetch (d : dbm) (key : list ascii) : option (list ascii) := option_map snd (find (fun e => streq (fst e) key) d).
(** strndup(p, n) of n bytes, modules/pam_userdb/pam_userdb.c:330: they end at a NUL. *)
Definition strndup (l : list ascii) : cstr := cut l.

Section Lookup.
(** crypt of the C library, modules/pam_userdb/pam_userdb.c:288-298. *)
Variable crypt : cstr -> cstr -> option cstr.
(** Databases by name, modules/pam_userdb/pam_userdb.c:144-152; None: cannot be opened. *)
Variable open : cstr -> option dbm.
(** Outcomes of allocations: 0 the key, 1 the copy of the data, 2 the data of crypt_r, 3 + k the copy of the k-th key. *)
Variable mem : nat -> bool.

(** Comparison with a stored password, modules/pam_userdb/pam_userdb.c:335-339 and 395-399; the loop runs once for each byte given. *)
Definition same (icase : bool) (pass stored : cstr) : res bool :=
  bind ((if icase then consttime_strcaseeq else consttime_streq) (S (length pass)) pass stored) (fun '(b, _) => Ok b).
(** The dump, modules/pam_userdb/pam_userdb.c:229-239. It prints keys and data as strings: defined only if they contain a NUL. *)
Definition dump_defined (d : dbm) : bool := forallb (fun e => existsb (Ascii.eqb NUL) (fst e) && existsb (Ascii.eqb NUL) (snd e)) d.
(** memcmp(key.dptr, user, ulen) == 0 after the test for the length and the dash, modules/pam_userdb/pam_userdb.c:384-389: what follows
    the dash. *)
Definition password_part (user : cstr) (key : list ascii) : option (list ascii) :=
  if (length user <? length key)%nat && Ascii.eqb (nth (length user) key NUL) "-"%char && streq (firstn (length user) key) user then Some (skipn (S (length user)) key) else None.
(** The loop over the keys, modules/pam_userdb/pam_userdb.c:372-414, from key number k on: the value of user_lookup. *)
Fixpoint key_loop (icase : bool) (user pass : cstr) (keys : dbm) (k : nat) (saw : bool) : res Z :=
  match keys with
  | [] => Ok (if saw then -1 else 1)
  | (key, _) :: keys =>
      match password_part user key with
      | None => key_loop icase user pass keys (S k) saw
      | Some rest =>
          if negb (mem (3 + k)%nat) then Ok (-2)
          else bind (same icase pass (strndup rest)) (fun b => if b : bool then Ok 0 else key_loop icase user pass keys (S k) true)
      end
  end.
(** Comparison with a hash, modules/pam_userdb/pam_userdb.c:273-320; true for compare == 0. strlen(cryptpw) == data.dsize and memcmp
    together are equality of the bytes. *)
Definition hash_matches (icase : bool) (pass : cstr) (data : list ascii) : bool :=
  if (length data <? 13)%nat then false
  else if icase then false
  else if negb (mem 1%nat) then false
  else if negb (mem 2%nat) then false
  else match crypt pass (strndup data) with Some h => streq h data | None => false end.
(** user_lookup, modules/pam_userdb/pam_userdb.c:200-418: 0 match, -1 wrong password, 1 no such user, -2 system error. Opening NULL is
    undefined. *)
Definition user_lookup (o : opts) (user pass : cstr) : res Z :=
  match o_db o with
  | None => UB
  | Some name =>
    match open name with
    | None => Ok (-2)
    | Some d =>
      if o_dump o && negb (dump_defined d) then UB
      else
        let key := if o_key_only o then (user ++ lit "-" ++ pass)%list else user in
        match (if mem 0%nat then fetch d key else None) with
        | Some data =>
            if o_key_only o then Ok 0
            else if match o_crypt o with Some c => match skip_icase (lit "crypt") c with Some _ => true | None => false end | None => false end then
              Ok (if hash_matches (o_icase o) pass data then 0 else -1)
            else if negb (mem 1%nat) then Ok (-1)
            else bind (same (o_icase o) pass (strndup data)) (fun b => Ok (if b : bool then 0 else -1))
        | None => if o_key_only o then key_loop (o_icase o) user pass d 0 false else Ok 1
        end
    end
  end.

(** What the handle answers: pam_get_user, the conversation for the password, pam_set_item and pam_get_item for PAM_AUTHTOK, and the item
    at the start. modules/pam_userdb/pam_userdb.c:55-84, 422-472. *)
Record handle := mkHd { u_user : Z * cstr; u_talk : Z * option cstr; u_set : Z; u_get : Z; u_item : option cstr }.
(** obtain_authtok, modules/pam_userdb/pam_userdb.c:55-84: an error, or the item afterwards. *)
Definition obtain (h : handle) : Z + cstr :=
  if negb (fst (u_talk h) =? PAM_SUCCESS) then inl (fst (u_talk h))
  else match snd (u_talk h) with
       | None => inl PAM_CONV_ERR
       | Some resp => if negb (u_set h =? PAM_SUCCESS) then inl (u_set h) else if negb (u_get h =? PAM_SUCCESS) then inl (u_get h) else inr resp
       end.
(** The password to check, modules/pam_userdb/pam_userdb.c:447-472. *)
Definition get_password (o : opts) (h : handle) : Z + cstr :=
  match (if negb (o_use_first o) && negb (o_try_first o) then match obtain h with inl r => inl r | inr p => inr (Some p) end else inr (u_item h)) with
  | inl r => inl r
  | inr item =>
      match (if u_get h =? PAM_SUCCESS then item else None) with
      | Some p => inr p
      | None => if o_try_first o then obtain h else inl PAM_AUTHTOK_RECOVERY_ERR
      end
  end.
(** pam_sm_authenticate, modules/pam_userdb/pam_userdb.c:422-510. *)
Definition authenticate (args : list cstr) (h : handle) : res Z :=
  let o := parse args in
  match o_db o with
  | None => Ok PAM_SERVICE_ERR
  | Some _ =>
      if negb (fst (u_user h) =? PAM_SUCCESS) then Ok PAM_SERVICE_ERR
      else match get_password o h with
           | inl r => Ok r
           | inr p =>
               bind (user_lookup o (snd (u_user h)) p) (fun r =>
               Ok (if r =? -2 then PAM_SERVICE_ERR else if r =? -1 then PAM_AUTH_ERR else if r =? 1 then PAM_USER_UNKNOWN else if r =? 0 then PAM_SUCCESS else PAM_SERVICE_ERR))
           end
  end.
(** pam_sm_acct_mgmt, modules/pam_userdb/pam_userdb.c:519-563. *)
Definition acct_mgmt (args : list cstr) (h : handle) : res Z :=
  let o := parse args in
  if negb (fst (u_user h) =? PAM_SUCCESS) then Ok PAM_SERVICE_ERR
  else bind (user_lookup o (snd (u_user h)) []) (fun r =>
       Ok (if r =? -2 then PAM_SERVICE_ERR else if (r =? -1) || (r =? 0) then PAM_SUCCESS else if r =? 1 then PAM_USER_UNKNOWN else PAM_SERVICE_ERR)).
End Lookup.
