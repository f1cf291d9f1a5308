(** Model of _pam_tokenize and _pam_mkargv (libpam/pam_misc.c), once on memory and once on strings.
    The memory version is the transcription; the string version is what other models use, and
    Tok_Proofs.v shows that it describes the memory version. *)
From Coq Require Import String Ascii List Arith ZArith Bool.
From Verif Require Import Base.
Import ListNotations.

(** DELIMITERS, libpam/pam_misc.c:49. *)
Definition is_delim (c : ascii) : bool := Ascii.eqb c c_space || Ascii.eqb c c_nl || Ascii.eqb c c_tab.
(** *end == '\0', libpam/pam_misc.c:66, 76, 94. *)
Definition is_nul (c : ascii) : bool := Ascii.eqb c NUL.

(** ** On memory: a buffer is a list of bytes, a pointer an index; access outside is UB. *)

(** Reading and writing one byte of the line buffer of _pam_tokenize, libpam/pam_misc.c:51-108. *)
Definition rd (buf : list ascii) (i : nat) : res ascii :=
  match nth_error buf i with Some c => Ok c | None => UB end.
(** Writing one byte of that buffer. *)
Definition wr (buf : list ascii) (i : nat) (c : ascii) : res (list ascii) :=
  match upd buf i c with Some b => Ok b | None => UB end.

(** strspn(from, DELIMITERS), libpam/pam_misc.c:64: index of the first byte that is not one of them. *)
Fixpoint span_mem (fuel : nat) (buf : list ascii) (i : nat) : res nat :=
  match fuel with
  | O => OutOfFuel
  | S f => bind (rd buf i) (fun c => if is_delim c then span_mem f buf (S i) else Ok i)
  end.

(** strcspn(from, DELIMITERS), libpam/pam_misc.c:90: also stops at NUL. *)
Fixpoint cspan_mem (fuel : nat) (buf : list ascii) (i : nat) : res nat :=
  match fuel with
  | O => OutOfFuel
  | S f => bind (rd buf i) (fun c => if is_delim c || is_nul c then Ok i else cspan_mem f buf (S i))
  end.

(** The loop of libpam/pam_misc.c:76-82: returns the buffer, [to] and [end]. *)
Fixpoint bracket_mem (fuel : nat) (buf : list ascii) (to end_ : nat) : res (list ascii * nat * nat) :=
  match fuel with
  | O => OutOfFuel
  | S f =>
    bind (rd buf end_) (fun c =>
    if is_nul c || Ascii.eqb c c_rbr then Ok (buf, to, end_)
    else
    bind (if Ascii.eqb c c_bslash
          then bind (rd buf (S end_)) (fun d => Ok (if Ascii.eqb d c_rbr then S end_ else end_))
          else Ok end_) (fun e =>
    bind (if (to =? e)%nat then Ok buf else bind (rd buf e) (fun x => wr buf to x)) (fun b =>
    bracket_mem f b (S to) (S e))))
  end.

(** _pam_tokenize, libpam/pam_misc.c:51-108, [from] given (not NULL).  Result: the new buffer and
    None (no token left, *next = NULL) or the index of the token and *next. *)
Definition tokenize_mem (buf : list ascii) (from : nat) : res (list ascii * option (nat * option nat)) :=
  let fuel := S (length buf) in
  bind (span_mem fuel buf from) (fun from =>
  bind (rd buf from) (fun c =>
  if is_nul c then Ok (buf, None)
  else
  bind (if Ascii.eqb c c_lbr then
          bind (bracket_mem fuel buf (S from) (S from)) (fun '(b, to, e) =>
          bind (if (to =? e)%nat then Ok b else wr b to NUL) (fun b => Ok (b, S from, e)))
        else bind (cspan_mem fuel buf from) (fun e => Ok (buf, from, e))) (fun '(b, tok, e) =>
  bind (rd b e) (fun x =>
  bind (if is_nul x then Ok (b, e) else bind (wr b e NUL) (fun b => Ok (b, S e))) (fun '(b, e) =>
  bind (rd b e) (fun y =>
  Ok (b, Some (tok, if is_nul y then None else Some e)))))))).

(** The while loop of _pam_mkargv, libpam/pam_misc.c:182-196.  [next] is the pointer handed to
    _pam_tokenize (argvbufp first, then *tmp); [slots] the pointers stored so far, newest first;
    [cap] the number of pointers that fit before the string (l).  Ok None = "too many arguments". *)
Fixpoint mkargv_loop (fuel : nat) (cap : nat) (buf : list ascii) (next : option nat) (slots : list nat)
  : res (option (list ascii * list nat)) :=
  match fuel with
  | O => OutOfFuel
  | S f =>
    match next with
    | None => Ok (Some (buf, slots))
    | Some i =>
      bind (tokenize_mem buf i) (fun '(b, r) =>
      match r with
      | None => Ok (Some (b, slots))
      | Some (tok, next') =>
          if (length slots <? cap)%nat then
            if (Z.of_nat (length slots) =? INT_MAX)%Z then Ok None
            else mkargv_loop f cap b next' (tok :: slots)
          else UB
      end)
    end
  end.

(** _pam_mkargv, libpam/pam_misc.c:154-205.  The string part of the malloc'ed block is a separate
    buffer of l+1 bytes, the pointer part has room for l pointers (simplification: the block has
    (l+1)*(1+sizeof(char pointer)) bytes, the string starting right after l pointers).  The test against
    SIZE_MAX is not modelled (no string is that long).  [oom]: malloc fails.
    Result: None = argv NULL and 0 returned; otherwise the string buffer and argv in order. *)
Definition mkargv_mem (oom : bool) (s : cstr) : res (option (list ascii * list nat)) :=
  match s with
  | [] => Ok None
  | _ =>
    if oom then Ok None
    else bind (mkargv_loop (S (S (length s))) (length s) (s ++ [NUL]) (Some 0%nat) []) (fun r =>
         match r with
         | None => Ok None
         | Some (buf, slots) => Ok (Some (buf, rev slots))
         end)
  end.

(** ** On strings *)

(** from += strspn(from, DELIMITERS), libpam/pam_misc.c:64. *)
Fixpoint drop_delims (s : cstr) : cstr :=
  match s with c :: t => if is_delim c then drop_delims t else s | [] => [] end.

(** libpam/pam_misc.c:90: a word and what is left from its end on. *)
Fixpoint take_word (s : cstr) : cstr * cstr :=
  match s with
  | c :: t => if is_delim c then ([], s) else let (a, b) := take_word t in (c :: a, b)
  | [] => ([], [])
  end.

(** libpam/pam_misc.c:76-88: the inside of brackets, and what is left from the closing bracket on. *)
Fixpoint take_bracket (s : cstr) : cstr * cstr :=
  match s with
  | [] => ([], [])
  | c :: t =>
      if Ascii.eqb c c_rbr then ([], s)
      else if Ascii.eqb c c_bslash then
        match t with
        | d :: t' => if Ascii.eqb d c_rbr then let (a, b) := take_bracket t' in (d :: a, b)
                     else let (a, b) := take_bracket t in (c :: a, b)
        | [] => ([c], [])
        end
      else let (a, b) := take_bracket t in (c :: a, b)
  end.

(** libpam/pam_misc.c:94-103: what follows a terminated token, None when nothing. *)
Definition next_of (s : cstr) : option cstr :=
  match s with _ :: (c :: t) => Some (c :: t) | _ => None end.

(** _pam_tokenize, libpam/pam_misc.c:51-108: the next token and the rest. *)
Definition tokenize (s : cstr) : option (cstr * option cstr) :=
  match drop_delims s with
  | [] => None
  | c :: t =>
      let (tok, rest) := if Ascii.eqb c c_lbr then take_bracket t else take_word (c :: t) in
      Some (tok, next_of rest)
  end.

(** A call _pam_tokenize(NULL, &nexttok), libpam/pam_misc.c:55-60. *)
Definition tokenize_next (next : option cstr) : option cstr * option cstr :=
  match next with
  | None => (None, None)
  | Some s => match tokenize s with Some (t, n) => (Some t, n) | None => (None, None) end
  end.

(** All tokens: the loop of _pam_mkargv, libpam/pam_misc.c:182-196. *)
Fixpoint tokens (fuel : nat) (next : option cstr) : list cstr :=
  match fuel with
  | O => []
  | S f => match tokenize_next next with (Some t, n) => t :: tokens f n | (None, _) => [] end
  end.
(** _pam_mkargv, libpam/pam_misc.c:154-205, on strings. *)
Definition mkargv (s : cstr) : list cstr := tokens (S (length s)) (Some s).
