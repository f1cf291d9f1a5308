(** Model of libpam/pam_env.c: the PAM environment list.
    Simplifications: a [char *] in the list is the string it points to (None = NULL); every string there is
    a private copy made by _pam_strdup.  The list has fewer than INT_MAX elements.  Strings contain no NUL. *)
From Coq Require Import String Ascii List Arith ZArith Bool.
From Verif Require Import Base.
Import ListNotations.
Local Open Scope Z_scope.

(** struct pam_environ, libpam/pam_private.h:109-115. *)
Record environ := mkEnv { entries : nat; requested : nat; elist : list (option cstr) }.

(** libpam/pam_private.h:106. *)
Definition ENV_CHUNK : nat := 10.

(** list[i] as an lvalue and as a string. *)
Definition slot (l : list (option cstr)) (i : nat) : res (option cstr) :=
  match nth_error l i with Some x => Ok x | None => UB end.
(** Assignment to list[i]; outside the array it is undefined. *)
Definition set_slot (l : list (option cstr)) (i : nat) (x : option cstr) : res (list (option cstr)) :=
  match upd l i x with Some l' => Ok l' | None => UB end.
(** Following a char pointer; NULL is undefined. *)
Definition deref (p : option cstr) : res cstr := match p with Some s => Ok s | None => UB end.

(** s[n]: the terminating NUL is readable, what follows is not. *)
Fixpoint char_at (s : cstr) (n : nat) : res ascii :=
  match s, n with
  | c :: _, O => Ok c
  | [], O => Ok NUL
  | _ :: t, S m => char_at t m
  | [], S _ => UB
  end.

(** strncmp(a, b, n) == 0. *)
Fixpoint strneq (n : nat) (a b : cstr) : bool :=
  match n with
  | O => true
  | S m => match a, b with
           | [], [] => true
           | x :: a', y :: b' => Ascii.eqb x y && strneq m a' b'
           | _, _ => false
           end
  end.

(** _pam_make_env, libpam/pam_env.c:55-92.  The result is what pamh->env is; [oom1], [oom2]: the
    allocations fail. *)
Definition make_env (oom1 oom2 : bool) : Z * option environ :=
  if oom1 then (PAM_BUF_ERR, None)
  else if oom2 then (PAM_BUF_ERR, None)
  else (PAM_SUCCESS, Some (mkEnv ENV_CHUNK 1 (repeat None ENV_CHUNK))).

(** _pam_search_env, libpam/pam_env.c:128-144: [i] indices left to look at. *)
Fixpoint search_from (l : list (option cstr)) (nv : cstr) (len : nat) (i : nat) : res (option nat) :=
  match i with
  | O => Ok None
  | S j =>
      bind (slot l j) (fun p => bind (deref p) (fun s =>
      if strneq len nv s then
        bind (char_at s len) (fun c => if Ascii.eqb c c_eq then Ok (Some j) else search_from l nv len j)
      else search_from l nv len j))
  end.
(** _pam_search_env as a whole: the search starts at requested-2 (lines cited above). *)
Definition search_env (e : environ) (nv : cstr) (len : nat) : res (option nat) :=
  search_from (elist e) nv len (requested e - 1).

(** libpam/pam_env.c:176: length up to the first '='. *)
Fixpoint len_to_eq (s : cstr) : nat :=
  match s with c :: t => if Ascii.eqb c c_eq then O else S (len_to_eq t) | [] => O end.

(** libpam/pam_env.c:267-286: remove item. *)
Definition remove_item (e : environ) (item : nat) (rv : Z) : res (Z * environ) :=
  bind (set_slot (elist e) item None) (fun l =>
  let r := (requested e - 1)%nat in
  (* memmove of (r - item) pointers from item+1 to item *)
  if (item + 1 + (r - item) <=? length l)%nat then
    Ok (rv, mkEnv (entries e) r
              (firstn item l ++ firstn (r - item) (skipn (item + 1) l) ++ skipn (item + (r - item)) l))
  else UB).

(** pam_putenv, libpam/pam_env.c:159-287, with pamh not NULL.  None as environment: pamh->env is NULL.
    [oom1]: calloc for a larger list fails; [oom2]: strdup fails. *)
Definition putenv (oom1 oom2 : bool) (env : option environ) (name_value : option cstr) : res (Z * option environ) :=
  match name_value with
  | None => Ok (PAM_PERM_DENIED, env)
  | Some nv =>
    let l2eq := len_to_eq nv in
    if (l2eq =? 0)%nat then Ok (PAM_BAD_ITEM, env)
    else
    match env with
    | None => Ok (PAM_ABORT, env)
    | Some e =>
      bind (search_env e nv l2eq) (fun item =>
      bind (char_at nv l2eq) (fun c =>
      if negb (Ascii.eqb c NUL) then
        (* (re)setting: find the place, 196-240 *)
        bind (match item with
              | None =>
                  bind (if (entries e <=? requested e)%nat then
                          if oom1 then Ok None
                          else if (requested e <=? length (elist e))%nat then
                            Ok (Some (mkEnv (entries e + ENV_CHUNK) (requested e)
                                  (firstn (requested e) (elist e) ++ repeat None (entries e + ENV_CHUNK - requested e))))
                          else UB
                        else Ok (Some e)) (fun grown =>
                  match grown with
                  | None => Ok None
                  | Some e' =>
                      bind (set_slot (elist e') (requested e') None) (fun l =>
                      Ok (Some ((requested e' - 1)%nat, mkEnv (entries e') (S (requested e')) l)))
                  end)
              | Some i => bind (set_slot (elist e) i None) (fun l => Ok (Some (i, mkEnv (entries e) (requested e) l)))
              end) (fun place =>
        match place with
        | None => Ok (PAM_BUF_ERR, env)
        | Some (i, e') =>
            (* 246-255 *)
            if oom2 then bind (remove_item e' i PAM_BUF_ERR) (fun '(rv, e2) => Ok (rv, Some e2))
            else bind (set_slot (elist e') i (Some nv)) (fun l => Ok (PAM_SUCCESS, Some (mkEnv (entries e') (requested e') l)))
        end)
      else
        match item with
        | None => Ok (PAM_BAD_ITEM, env)
        | Some i => bind (remove_item e i PAM_SUCCESS) (fun '(rv, e2) => Ok (rv, Some e2))
        end))
    end
  end.

(** pam_getenv, libpam/pam_env.c:293-325. *)
Definition getenv (env : option environ) (name : option cstr) : res (option cstr) :=
  match name, env with
  | None, _ | _, None => Ok None
  | Some n, Some e =>
      bind (search_env e n (length n)) (fun item =>
      match item with
      | None => Ok None
      | Some i => bind (slot (elist e) i) (fun p => bind (deref p) (fun s => Ok (Some (skipn (1 + length n) s))))
      end)
  end.

(** _copy_env, libpam/pam_env.c:327-364: the copies made from the last to the first; [fails i]: the
    copy of item i fails. *)
Fixpoint copy_from (l : list (option cstr)) (fails : nat -> bool) (i : nat) (done : list cstr) : res (option (list cstr)) :=
  match i with
  | O => Ok (Some done)
  | S j => bind (slot l j) (fun p =>
           match p with
           | None => Ok None   (* _pam_strdup(NULL) is NULL *)
           | Some s => if fails j then Ok None else copy_from l fails j (s :: done)
           end)
  end.

(** libpam/pam_env.c:388-395. *)
Fixpoint all_set (l : list (option cstr)) (i : nat) : res bool :=
  match i with
  | O => Ok true
  | S j => bind (slot l j) (fun p => match p with None => Ok false | Some _ => all_set l j end)
  end.

(** pam_getenvlist, libpam/pam_env.c:366-400: the strings before the final NULL; None = NULL. *)
Definition getenvlist (oom : bool) (fails : nat -> bool) (env : option environ) : res (option (list cstr)) :=
  match env with
  | None => Ok None
  | Some e =>
      if (entries e <? requested e)%nat then Ok None
      else bind (all_set (elist e) (requested e - 1)) (fun good =>
      if good then
        if oom then Ok None else copy_from (elist e) fails (requested e - 1) []
      else Ok None)
  end.
