(** Model of the string comparison and password transfer in libpam/include/pam_inline.h and of
    libpam/pam_modutil_ioloop.c. *)
From Coq Require Import String Ascii List Arith ZArith Bool.
From Verif Require Import Base.
Import ListNotations.
Local Open Scope Z_scope.

(** ** Comparison *)
(** The byte at index [i] of the array holding the string and its NUL; None is a read outside the array. *)
Definition byte_at (s : cstr) (i : nat) : option ascii := nth_error (s ++ [NUL]) i.

(** A char promoted to int, with char signed. *)
Definition char_int (c : ascii) : Z := let n := Z.of_nat (ord c) in if n <? 128 then n else n - 256.

(** (unsigned char) then tolower, as an int. *)
Definition lower_int (c : ascii) : Z := Z.of_nat (ord (tolower c)).

(** The loop of pam_consttime_streq, libpam/include/pam_inline.h:239-243, and of pam_consttime_strcaseeq,
    lines 258-262; [val] is what each character contributes.  The last component counts the iterations, the
    one before lists the reads of the secret, latest first. *)
Fixpoint consttime_loop (val : ascii -> Z) (fuel : nat) (u s : cstr) (ui si : nat) (ret : Z) (reads : list nat) (steps : nat)
  : res (Z * list nat * nat) :=
  match fuel with
  | O => OutOfFuel
  | S f =>
    match byte_at u ui, byte_at s si with
    | Some a, Some b =>
      let ret := Z.lor ret (Z.lxor (val a) (val b)) in
      let reads := si :: reads in
      let si := if Ascii.eqb b NUL then si else S si in
      if negb (Ascii.eqb a NUL) then consttime_loop val f u s (S ui) si ret reads (S steps) else Ok (ret, reads, S steps)
    | _, _ => UB
    end
  end.

(** pam_consttime_streq, libpam/include/pam_inline.h:234-246. *)
Definition consttime_streq (fuel : nat) (userinput secret : cstr) : res (bool * nat) :=
  bind (consttime_loop char_int fuel userinput secret 0 0 0 [] 0) (fun '(ret, _, steps) => Ok (ret =? 0, steps)).

(** pam_consttime_strcaseeq, libpam/include/pam_inline.h:253-265. *)
Definition consttime_strcaseeq (fuel : nat) (userinput secret : cstr) : res (bool * nat) :=
  bind (consttime_loop lower_int fuel userinput secret 0 0 0 [] 0) (fun '(ret, _, steps) => Ok (ret =? 0, steps)).

(** ** Memory *)
(** Bytes written to a buffer from an offset on; None is a write outside the buffer. *)
Fixpoint blit (buf : list ascii) (off : nat) (d : list ascii) : option (list ascii) :=
  match d with
  | [] => Some buf
  | c :: d => match upd buf off c with Some b => blit b (S off) d | None => None end
  end.

(** pam_overwrite_n, libpam/include/pam_inline.h:104-125, the buffer not being NULL. *)
Definition overwrite_n (buf : list ascii) (off n : nat) : option (list ascii) := blit buf off (repeat NUL n).

(** memchr(p, 0, n) (C standard library): the index of the first NUL among the [n] bytes from [off] on.
    The outer None is a read outside the buffer. *)
Fixpoint memchr0 (buf : list ascii) (off n : nat) : option (option nat) :=
  match n with
  | O => Some None
  | S n => match nth_error buf off with
           | None => None
           | Some c => if Ascii.eqb c NUL then Some (Some O)
                       else match memchr0 buf (S off) n with
                            | None => None
                            | Some None => Some None
                            | Some (Some j) => Some (Some (S j))
                            end
           end
  end.

(** ** The kernel *)
(** What the kernel does with the next read or write: interrupted (EINTR), another error, 0, or up to
    [S k] bytes.  When the plan is used up, it transfers as much as it can. *)
Inductive kstep := KIntr | KFail | KZero | KTake (k : nat).

(** A descriptor being read: the bytes still to come and the plan. *)
Record src := mkSrc { avail : list ascii; plan : list kstep }.
(** The result of read or write. *)
Inductive kres := RIntr | RFail | RData (d : list ascii).

(** read(fd, buf, n): the bytes put into the buffer, none at the end of file or for [n = 0]. *)
Definition sys_read (n : nat) (s : src) : kres * src :=
  match plan s with
  | [] => (RData (firstn n (avail s)), mkSrc (skipn n (avail s)) [])
  | KIntr :: p => (RIntr, mkSrc (avail s) p)
  | KFail :: p => (RFail, mkSrc (avail s) p)
  | KZero :: p => (RData [], mkSrc (avail s) p)
  | KTake k :: p => let m := Nat.min (S k) n in (RData (firstn m (avail s)), mkSrc (skipn m (avail s)) p)
  end.

(** A descriptor being written: what it has received and the plan. *)
Record sink := mkSink { received : list ascii; wplan : list kstep }.
(** write(fd, d, length d): the bytes taken. *)
Definition sys_write (d : list ascii) (s : sink) : kres * sink :=
  match wplan s with
  | [] => (RData d, mkSink (received s ++ d) [])
  | KIntr :: p => (RIntr, mkSink (received s) p)
  | KFail :: p => (RFail, mkSink (received s) p)
  | KZero :: p => (RData [], mkSink (received s) p)
  | KTake k :: p => let t := firstn (S k) d in (RData t, mkSink (received s ++ t) p)
  end.

(** ** pam_modutil_read and pam_modutil_write *)
(** The loop at libpam/pam_modutil_ioloop.c:23-36. *)
Fixpoint read_loop (fuel : nat) (buf : list ascii) (offset count : nat) (s : src) : res (Z * list ascii * src) :=
  match fuel with
  | O => OutOfFuel
  | S f =>
    if (0 <? count)%nat then
      match sys_read count s with
      | (RIntr, s) => read_loop f buf offset count s
      | (RFail, s) => Ok (-1, buf, s)
      | (RData d, s) =>
        match blit buf offset d with
        | None => UB
        | Some buf => if (length d =? 0)%nat then Ok (Z.of_nat offset, buf, s)
                      else read_loop f buf (offset + length d) (count - length d) s
        end
      end
    else Ok (Z.of_nat offset, buf, s)
  end.

(** pam_modutil_read, libpam/pam_modutil_ioloop.c:13-37.  Simplification: the result of read fits an int,
    as it is at most [count]. *)
Definition modutil_read (fuel : nat) (buf : list ascii) (count : Z) (s : src) : res (Z * list ascii * src) :=
  if count <? 0 then Ok (-1, buf, s) else read_loop fuel buf 0 (Z.to_nat count) s.

(** The loop at libpam/pam_modutil_ioloop.c:49-62.  The kernel reads all [count] bytes at most. *)
Fixpoint write_loop (fuel : nat) (buf : list ascii) (offset count : nat) (s : sink) : res (Z * sink) :=
  match fuel with
  | O => OutOfFuel
  | S f =>
    if (0 <? count)%nat then
      if (length buf <? offset + count)%nat then UB
      else match sys_write (firstn count (skipn offset buf)) s with
      | (RIntr, s) => write_loop f buf offset count s
      | (RFail, s) => Ok (-1, s)
      | (RData d, s) => if (length d =? 0)%nat then Ok (Z.of_nat offset, s)
                        else write_loop f buf (offset + length d) (count - length d) s
      end
    else Ok (Z.of_nat offset, s)
  end.

(** pam_modutil_write, libpam/pam_modutil_ioloop.c:39-63. *)
Definition modutil_write (fuel : nat) (buf : list ascii) (count : Z) (s : sink) : res (Z * sink) :=
  if count <? 0 then Ok (-1, s) else write_loop fuel buf 0 (Z.to_nat count) s.

(** ** pam_read_passwords *)
(** PAM_MAX_RESP_SIZE + 1, libpam/include/security/_pam_types.h:248. *)
Definition CAP : nat := 513.

(** The inner loop, libpam/include/pam_inline.h:209-222.  Result: the buffers, i, what is left of npass,
    offset and rbytes.  The buffers do not overlap (two entries of the list are two objects). *)
Fixpoint split_loop (npass : nat) (bufs : list (list ascii)) (i offset rbytes : nat)
  : res (list (list ascii) * nat * nat * nat * nat) :=
  match npass with
  | O => Ok (bufs, i, O, offset, rbytes)
  | S np =>
    match nth_error bufs i with
    | None => UB
    | Some b =>
      match memchr0 b offset rbytes with
      | None => UB
      | Some None => Ok (bufs, i, npass, offset, rbytes)
      | Some (Some j) =>
        let pptr := (offset + j + 1)%nat in
        let rb := (rbytes - (j + 1))%nat in
        if (0 <? rb)%nat then
          let copied :=
            if (0 <? np)%nat then
              match nth_error bufs (S i) with
              | None => None
              | Some nb => match blit nb 0 (firstn rb (skipn pptr b)) with
                           | None => None
                           | Some nb => upd bufs (S i) nb
                           end
              end
            else Some bufs in
          match copied, overwrite_n b pptr rb with
          | Some bufs, Some b => match upd bufs i b with Some bufs => split_loop np bufs (S i) 0 rb | None => UB end
          | _, _ => UB
          end
        else split_loop np bufs (S i) 0 rb
      end
    end
  end.

(** The outer loop, libpam/include/pam_inline.h:196-224. *)
Fixpoint fill_loop (fuel npass : nat) (bufs : list (list ascii)) (i offset : nat) (s : src)
  : res (list (list ascii) * nat * nat * nat * src) :=
  match fuel with
  | O => OutOfFuel
  | S f =>
    if (0 <? npass)%nat then
      match sys_read (CAP - offset) s with
      | (RIntr, s) => fill_loop f npass bufs i offset s
      | (RFail, s) => Ok (bufs, i, npass, offset, s)
      | (RData d, s) =>
        match nth_error bufs i with
        | None => UB
        | Some b =>
          match blit b offset d with
          | None => UB
          | Some b =>
            match upd bufs i b with
            | None => UB
            | Some bufs =>
              if (length d =? 0)%nat then Ok (bufs, i, npass, offset, s)
              else bind (split_loop npass bufs i offset (length d)) (fun '(bufs, i, npass, offset, rbytes) =>
                   fill_loop f npass bufs i (offset + rbytes) s)
            end
          end
        end
      end
    else Ok (bufs, i, npass, offset, s)
  end.

(** pam_read_passwords, libpam/include/pam_inline.h:185-232.  A negative npass acts like 0. *)
Definition read_passwords (fuel npass : nat) (bufs : list (list ascii)) (s : src) : res (nat * list (list ascii) * src) :=
  bind (fill_loop fuel npass bufs 0 0 s) (fun '(bufs, i, np, offset, s) =>
  if (0 <? offset)%nat && (0 <? np)%nat then
    match nth_error bufs i with
    | None => UB
    | Some b => match overwrite_n b 0 offset with
                | None => UB
                | Some b => match upd bufs i b with Some bufs => Ok (i, bufs, s) | None => UB end
                end
    end
  else Ok (i, bufs, s)).
