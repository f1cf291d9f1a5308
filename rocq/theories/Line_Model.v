(** Model of libpam_internal/pam_line.c: logical lines of configuration files. *)
From Coq Require Import String Ascii List Arith ZArith Bool.
From Verif Require Import Base.
Import ListNotations.

(** getline(3): the byte sequences it delivers for a file content, each ending with the newline
    except perhaps the last. *)
Fixpoint split_lines (s : list ascii) : list (list ascii) :=
  match s with
  | [] => []
  | c :: t =>
      if Ascii.eqb c c_nl then [c] :: split_lines t
      else match split_lines t with
           | [] => [[c]]
           | l :: ls => (c :: l) :: ls
           end
  end.

(** The C string starting a byte sequence: the bytes before its first NUL (C strings in general). *)
Fixpoint cpart (s : list ascii) : cstr :=
  match s with c :: t => if Ascii.eqb c NUL then [] else c :: cpart t | [] => [] end.

(** The characters of strspn(str, " \t"), pam_line.c:116. *)
Definition is_blank (c : ascii) : bool := Ascii.eqb c c_space || Ascii.eqb c c_tab.
(** The characters skipped backwards, pam_line.c:148. *)
Definition is_trail (c : ascii) : bool := is_blank c || Ascii.eqb c c_nl.

(** The backward scan of _pam_str_unescnl, pam_line.c:148-149, on the reversed line: drop trailing
    blanks and newlines but never the first character. *)
Fixpoint back_scan (r : list ascii) : list ascii :=
  match r with
  | [] => []
  | c :: t => match t with
              | [] => r
              | _ :: _ => if is_trail c then back_scan t else r
              end
  end.

(** _pam_str_unescnl, pam_line.c:138-160.  Some l: an escaped newline was found and the bytes from
    start to the new end are l (for repl = NUL the backslash byte itself is overwritten by the NUL). *)
Definition unescnl (repl : ascii) (line : list ascii) : option (list ascii) :=
  match back_scan (rev line) with
  | c :: t => if Ascii.eqb c c_bslash
              then Some (rev t ++ (if Ascii.eqb repl NUL then [] else [repl]))
              else None
  | [] => None
  end.

(** str += strspn(str, " \t"), pam_line.c:116. *)
Fixpoint skip_blank (s : list ascii) : list ascii :=
  match s with c :: t => if is_blank c then skip_blank t else s | [] => [] end.

(** str[strcspn(str, "#")] = NUL, pam_line.c:121, on the bytes from start to end; when the string
    has no '#' the byte overwritten is its NUL. *)
Fixpoint cut_comment (s : list ascii) : list ascii :=
  match s with
  | c :: t => if Ascii.eqb c NUL then s else if Ascii.eqb c c_hash then NUL :: t else c :: cut_comment t
  | [] => []
  end.

(** strchr(start, '#') != NULL, pam_line.c:179. *)
Definition has_hash (s : list ascii) : bool := existsb (fun c => Ascii.eqb c c_hash) (cpart s).

(** _pam_str_prepare, pam_line.c:171-184: end of logical line?, and the bytes from start to end. *)
Definition prepare (repl : ascii) (line : list ascii) : bool * list ascii :=
  match unescnl repl line with
  | None => (true, cut_comment (skip_blank line))
  | Some l => (has_hash l, cut_comment (skip_blank l))
  end.

(** _pam_line_buffer_add, pam_line.c:8-51 (None = assembled is NULL).  Simplification: realloc
    does not fail. *)
Definition buf_add (asm : option (list ascii)) (seg : list ascii) : option (list ascii) :=
  match seg with
  | [] => asm
  | _ => match asm with None => Some seg | Some a => Some (a ++ seg) end
  end.

(** _pam_line_buffer_add_eol, pam_line.c:53-59. *)
Definition buf_add_eol (asm : option (list ascii)) (seg : list ascii) : option (list ascii) :=
  match asm, seg with
  | None, [] => None
  | None, c :: _ => if Ascii.eqb c NUL || Ascii.eqb c c_nl then None else buf_add asm seg
  | Some _, _ => buf_add asm seg
  end.

(** _pam_line_buffer_valid, pam_line.c:100-103. *)
Definition buf_valid (asm : option (list ascii)) : bool :=
  match asm with Some (c :: _) => negb (Ascii.eqb c NUL) | _ => false end.

(** Result of one call: end of file, a line (its C string) with the unread rest, or an error. *)
Inductive lres := LEof | LLine (s : cstr) (rest : list (list ascii)) | LErr.

(** _pam_line_assemble, pam_line.c:195-253.  The file is the list of byte sequences getline still
    delivers before it returns -1 (which it does at end of file, on a read error and when it cannot
    allocate; the code does not distinguish them).  [going]: ret is 1. *)
Fixpoint assemble (repl : ascii) (f : list (list ascii)) (asm : option (list ascii)) (going : bool) : lres :=
  match f with
  | [] => if going then LErr else LEof
  | line :: f' =>
      let (eol, seg) := prepare repl line in
      if eol then
        let asm' := buf_add_eol asm seg in
        if buf_valid asm' then LLine (match asm' with Some a => cpart a | None => [] end) f'
        else assemble repl f' None false
      else assemble repl f' (buf_add asm seg) true
  end.

(** All lines a caller looping "while (assemble() > 0)" gets, and whether it ended with an error. *)
Fixpoint all_lines_fuel (fuel : nat) (repl : ascii) (f : list (list ascii)) : list cstr * bool :=
  match fuel with
  | O => ([], true)
  | S n => match assemble repl f None false with
           | LEof => ([], true)
           | LErr => ([], false)
           | LLine s rest => let (l, ok) := all_lines_fuel n repl rest in (s :: l, ok)
           end
  end.
(** All lines of a file; one more turn than physical lines suffices. *)
Definition file_lines (repl : ascii) (f : list (list ascii)) : list cstr * bool :=
  all_lines_fuel (S (length f)) repl f.
