(** Logical lines, independently of the buffers of pam_line.c (pam.conf(5), "The syntax"). *)
From Coq Require Import String Ascii List Arith Bool.
From Verif Require Import Base.
Import ListNotations.

Definition white (c : ascii) : Prop := c = " "%char \/ c = chr 9.
Definition white_nl (c : ascii) : Prop := white c \/ c = chr 10.

(** [continued line body]: the physical line is [body], a backslash, then only blanks and newlines. *)
Definition continued (line body : cstr) : Prop :=
  exists w, line = body ++ chr 92 :: w /\ Forall white_nl w.

(** [text line t]: t is the line without leading blanks and without comment. *)
Inductive text : cstr -> cstr -> Prop :=
| text_intro : forall w t tail, Forall white w -> (match t ++ tail with c :: _ => ~ white c | [] => True end) ->
    ~ In "#"%char t -> (tail = [] \/ exists u, tail = "#"%char :: u) -> text (w ++ t ++ tail) t.

(** One physical line: it goes on, contributing a text; or it ends the logical line. *)
Inductive piece (repl : cstr) : cstr -> bool -> cstr -> Prop :=
| piece_more : forall line body t, continued line body -> ~ In "#"%char body -> text (body ++ repl) t ->
    piece repl line true t
| piece_comment : forall line body t, continued line body -> In "#"%char body -> text (body ++ repl) t ->
    piece repl line false t
| piece_end : forall line t, (forall body, ~ continued line body) -> text line t -> piece repl line false t.

(** A logical line is what some continued lines and one ending line contribute. *)
Inductive group (repl : cstr) : list cstr -> cstr -> Prop :=
| group_end : forall line t, piece repl line false t -> group repl [line] t
| group_more : forall line ls t u, piece repl line true t -> group repl ls u -> group repl (line :: ls) (t ++ u).

Definition empty_line (t : cstr) : Prop := t = [] \/ exists u, t = chr 10 :: u.

(** [logical repl file lines ok]: the non-empty logical lines; ok is false when the file ends inside
    a continuation. *)
Inductive logical (repl : cstr) : list cstr -> list cstr -> bool -> Prop :=
| log_end : logical repl [] [] true
| log_cut : forall l, l <> [] -> Forall (fun x => exists t, piece repl x true t) l -> logical repl l [] false
| log_skip : forall g t rest ls ok, group repl g t -> empty_line t -> logical repl rest ls ok -> logical repl (g ++ rest) ls ok
| log_line : forall g t rest ls ok, group repl g t -> ~ empty_line t -> logical repl rest ls ok ->
    logical repl (g ++ rest) (t :: ls) ok.
