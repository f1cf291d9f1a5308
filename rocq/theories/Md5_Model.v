(** Model of modules/pam_unix/md5.c and md5_crypt.c. Memory is octets (Z from 0 to 255); [big] says whether the machine
    stores the most significant octet of a word first, [hf] whether the file is compiled with HIGHFIRST: it is for the
    functions named Good (md5_good.c), not for those named Broken (md5_broken.c). *)
From Coq Require Import String Ascii List Arith NArith ZArith Bool.
From Verif Require Import Base Str_Model.
Import ListNotations.
Local Open Scope Z_scope.

(** uint32 arithmetic: modulo 2^32. *)
Definition u32 (x : Z) : Z := x mod 2 ^ 32.
(** The word the machine reads from four octets, and the octets it writes for a word. *)
Definition load (big : bool) (l : list Z) : Z :=
  match l with
  | [x0; x1; x2; x3] => if big then x0 * 16777216 + x1 * 65536 + x2 * 256 + x3 else x3 * 16777216 + x2 * 65536 + x1 * 256 + x0
  | _ => 0
  end.
(** A word written to memory: four octets in the order of the machine, modules/pam_unix/md5.c:30-48. *)
Definition store (big : bool) (x : Z) : list Z :=
  let l := [Z.land x 255; Z.land (Z.shiftr x 8) 255; Z.land (Z.shiftr x 16) 255; Z.land (Z.shiftr x 24) 255] in
  if big then rev l else l.
(** The words of a buffer: ctx->in.i, [n] of them. *)
Fixpoint words (big : bool) (n : nat) (l : list Z) : list Z :=
  match n with O => [] | S n => load big (firstn 4 l) :: words big n (skipn 4 l) end.
(** byteReverse, modules/pam_unix/md5.c:25-48: without HIGHFIRST a macro that does nothing. [n] words of the buffer; the rest stays. *)
Fixpoint byteReverse (hf big : bool) (l : list Z) (n : nat) {struct n} : list Z :=
  match n with
  | O => l
  | S n =>
    if hf then
      match l with
      | p0 :: p1 :: p2 :: p3 :: l => store big (Z.lor (u32 (Z.shiftl (Z.lor (Z.shiftl p3 8) p2) 16)) (Z.lor (Z.shiftl p1 8) p0)) ++ byteReverse hf big l n
      | _ => l
      end
    else l
  end.

(** F1 to F4, modules/pam_unix/md5.c:162-165. *)
Definition F1 (x y z : Z) : Z := Z.lxor z (Z.land x (Z.lxor y z)).
(** F2, modules/pam_unix/md5.c:163. *)
Definition F2 (x y z : Z) : Z := F1 z x y.
(** F3, modules/pam_unix/md5.c:164. *)
Definition F3 (x y z : Z) : Z := Z.lxor (Z.lxor x y) z.
(** F4, modules/pam_unix/md5.c:165. *)
Definition F4 (x y z : Z) : Z := Z.lxor y (Z.lor x (u32 (Z.lnot z))).

(** The local variables of MD5Transform, modules/pam_unix/md5.c:178. *)
Inductive reg := A | B | C | D.
(** Their values, modules/pam_unix/md5.c:178. *)
Record file := mkFile { fa : Z; fb : Z; fc : Z; fd : Z }.
(** Reading one of them, modules/pam_unix/md5.c:178. *)
Definition get (f : file) (r : reg) : Z := match r with A => fa f | B => fb f | C => fc f | D => fd f end.
(** Assigning to one of them, modules/pam_unix/md5.c:178. *)
Definition put (f : file) (r : reg) (v : Z) : file :=
  match r with
  | A => mkFile v (fb f) (fc f) (fd f)
  | B => mkFile (fa f) v (fc f) (fd f)
  | C => mkFile (fa f) (fb f) v (fd f)
  | D => mkFile (fa f) (fb f) (fc f) v
  end.
(** The arguments of one MD5STEP: f, (w, x, y, z), k, con, s; modules/pam_unix/md5.c:168. *)
Definition row := ((Z -> Z -> Z -> Z) * (reg * reg * reg * reg) * nat * Z * Z)%type.
(** MD5STEP, modules/pam_unix/md5.c:168-169, with data = in[k] + con. *)
Definition md5_step (inp : list Z) (f : file) (r : row) : file :=
  let '(fn, (w, x, y, z), k, con, s) := r in
  let data := u32 (nth k inp 0 + con) in
  let v := u32 (get f w + u32 (fn (get f x) (get f y) (get f z) + data)) in
  let v := Z.lor (u32 (Z.shiftl v s)) (Z.shiftr v (32 - s)) in
  put f w (u32 (v + get f x)).
(** The steps, modules/pam_unix/md5.c:185-251. *)
Definition rows : list row :=
  [(F1, (A, B, C, D), 0%nat, 0xd76aa478, 7); (F1, (D, A, B, C), 1%nat, 0xe8c7b756, 12);
   (F1, (C, D, A, B), 2%nat, 0x242070db, 17); (F1, (B, C, D, A), 3%nat, 0xc1bdceee, 22);
   (F1, (A, B, C, D), 4%nat, 0xf57c0faf, 7); (F1, (D, A, B, C), 5%nat, 0x4787c62a, 12);
   (F1, (C, D, A, B), 6%nat, 0xa8304613, 17); (F1, (B, C, D, A), 7%nat, 0xfd469501, 22);
   (F1, (A, B, C, D), 8%nat, 0x698098d8, 7); (F1, (D, A, B, C), 9%nat, 0x8b44f7af, 12);
   (F1, (C, D, A, B), 10%nat, 0xffff5bb1, 17); (F1, (B, C, D, A), 11%nat, 0x895cd7be, 22);
   (F1, (A, B, C, D), 12%nat, 0x6b901122, 7); (F1, (D, A, B, C), 13%nat, 0xfd987193, 12);
   (F1, (C, D, A, B), 14%nat, 0xa679438e, 17); (F1, (B, C, D, A), 15%nat, 0x49b40821, 22);
   (F2, (A, B, C, D), 1%nat, 0xf61e2562, 5); (F2, (D, A, B, C), 6%nat, 0xc040b340, 9);
   (F2, (C, D, A, B), 11%nat, 0x265e5a51, 14); (F2, (B, C, D, A), 0%nat, 0xe9b6c7aa, 20);
   (F2, (A, B, C, D), 5%nat, 0xd62f105d, 5); (F2, (D, A, B, C), 10%nat, 0x02441453, 9);
   (F2, (C, D, A, B), 15%nat, 0xd8a1e681, 14); (F2, (B, C, D, A), 4%nat, 0xe7d3fbc8, 20);
   (F2, (A, B, C, D), 9%nat, 0x21e1cde6, 5); (F2, (D, A, B, C), 14%nat, 0xc33707d6, 9);
   (F2, (C, D, A, B), 3%nat, 0xf4d50d87, 14); (F2, (B, C, D, A), 8%nat, 0x455a14ed, 20);
   (F2, (A, B, C, D), 13%nat, 0xa9e3e905, 5); (F2, (D, A, B, C), 2%nat, 0xfcefa3f8, 9);
   (F2, (C, D, A, B), 7%nat, 0x676f02d9, 14); (F2, (B, C, D, A), 12%nat, 0x8d2a4c8a, 20);
   (F3, (A, B, C, D), 5%nat, 0xfffa3942, 4); (F3, (D, A, B, C), 8%nat, 0x8771f681, 11);
   (F3, (C, D, A, B), 11%nat, 0x6d9d6122, 16); (F3, (B, C, D, A), 14%nat, 0xfde5380c, 23);
   (F3, (A, B, C, D), 1%nat, 0xa4beea44, 4); (F3, (D, A, B, C), 4%nat, 0x4bdecfa9, 11);
   (F3, (C, D, A, B), 7%nat, 0xf6bb4b60, 16); (F3, (B, C, D, A), 10%nat, 0xbebfbc70, 23);
   (F3, (A, B, C, D), 13%nat, 0x289b7ec6, 4); (F3, (D, A, B, C), 0%nat, 0xeaa127fa, 11);
   (F3, (C, D, A, B), 3%nat, 0xd4ef3085, 16); (F3, (B, C, D, A), 6%nat, 0x04881d05, 23);
   (F3, (A, B, C, D), 9%nat, 0xd9d4d039, 4); (F3, (D, A, B, C), 12%nat, 0xe6db99e5, 11);
   (F3, (C, D, A, B), 15%nat, 0x1fa27cf8, 16); (F3, (B, C, D, A), 2%nat, 0xc4ac5665, 23);
   (F4, (A, B, C, D), 0%nat, 0xf4292244, 6); (F4, (D, A, B, C), 7%nat, 0x432aff97, 10);
   (F4, (C, D, A, B), 14%nat, 0xab9423a7, 15); (F4, (B, C, D, A), 5%nat, 0xfc93a039, 21);
   (F4, (A, B, C, D), 12%nat, 0x655b59c3, 6); (F4, (D, A, B, C), 3%nat, 0x8f0ccc92, 10);
   (F4, (C, D, A, B), 10%nat, 0xffeff47d, 15); (F4, (B, C, D, A), 1%nat, 0x85845dd1, 21);
   (F4, (A, B, C, D), 8%nat, 0x6fa87e4f, 6); (F4, (D, A, B, C), 15%nat, 0xfe2ce6e0, 10);
   (F4, (C, D, A, B), 6%nat, 0xa3014314, 15); (F4, (B, C, D, A), 13%nat, 0x4e0811a1, 21);
   (F4, (A, B, C, D), 4%nat, 0xf7537e82, 6); (F4, (D, A, B, C), 11%nat, 0xbd3af235, 10);
   (F4, (C, D, A, B), 2%nat, 0x2ad7d2bb, 15); (F4, (B, C, D, A), 9%nat, 0xeb86d391, 21)].
(** MD5Transform, modules/pam_unix/md5.c:176-257. *)
Definition MD5Transform (buf : file) (inp : list Z) : file :=
  let f := fold_left (md5_step inp) rows buf in
  mkFile (u32 (fa buf + fa f)) (u32 (fb buf + fb f)) (u32 (fc buf + fc f)) (u32 (fd buf + fd f)).

(** struct MD5Context, modules/pam_unix/md5.h:8-18. *)
Record ctx := mkCtx { buf : file; bits0 : Z; bits1 : Z; inc : list Z }.
(** MD5Init, modules/pam_unix/md5.c:54-63; ctx->in is not initialised: [junk] is what it contains. *)
Definition MD5Init (junk : list Z) : ctx := mkCtx (mkFile 0x67452301 0xefcdab89 0x98badcfe 0x10325476) 0 0 junk.

(** memcpy of [l] to offset [o] of a buffer; None outside its bounds. *)
Definition copy_to (b : list Z) (o : nat) (l : list Z) : option (list Z) :=
  if (o + length l <=? length b)%nat then Some (firstn o b ++ l ++ skipn (o + length l) b) else None.
(** byteReverse and MD5Transform on the input buffer. *)
Definition absorb_in (hf big : bool) (b : file) (i : list Z) : file * list Z :=
  let i := byteReverse hf big i 16 in (MD5Transform b (words big 16 i), i).
(** The loop over whole blocks, modules/pam_unix/md5.c:100-106, and the copy of the rest, line 110. *)
Fixpoint blocks (hf big : bool) (fuel : nat) (b : file) (i data : list Z) : res (file * list Z) :=
  match fuel with
  | O => OutOfFuel
  | S fuel =>
    if (64 <=? length data)%nat then
      match copy_to i 0 (firstn 64 data) with
      | None => UB
      | Some i => let '(b, i) := absorb_in hf big b i in blocks hf big fuel b i (skipn 64 data)
      end
    else match copy_to i 0 data with None => UB | Some i => Ok (b, i) end
  end.
(** MD5Update, modules/pam_unix/md5.c:69-111; [data] are the [len] octets at buf. *)
Definition MD5Update (hf big : bool) (c : ctx) (data : list Z) : res ctx :=
  let len := Z.of_nat (length data) in
  let t := bits0 c in
  let b0 := u32 (t + u32 (Z.shiftl len 3)) in
  let b1 := if b0 <? t then u32 (bits1 c + 1) else bits1 c in
  let b1 := u32 (b1 + Z.shiftr len 29) in
  let t := Z.to_nat (Z.land (Z.shiftr t 3) 63) in
  if (t =? 0)%nat then
    bind (blocks hf big (S (length data)) (buf c) (inc c) data) (fun '(b, i) => Ok (mkCtx b b0 b1 i))
  else
    let t' := (64 - t)%nat in
    if (length data <? t')%nat then
      match copy_to (inc c) t data with None => UB | Some i => Ok (mkCtx (buf c) b0 b1 i) end
    else
      match copy_to (inc c) t (firstn t' data) with
      | None => UB
      | Some i =>
        let '(b, i) := absorb_in hf big (buf c) i in
        bind (blocks hf big (S (length data)) b i (skipn t' data)) (fun '(b, i) => Ok (mkCtx b b0 b1 i))
      end.

(** MD5Final, modules/pam_unix/md5.c:117-155; the context is overwritten and not used again. *)
Definition MD5Final (hf big : bool) (c : ctx) : res (list Z) :=
  let n := Z.to_nat (Z.land (Z.shiftr (bits0 c) 3) 63) in
  let count := (63 - n)%nat in
  match
    (if (count <? 8)%nat then
       match copy_to (inc c) n (128 :: repeat 0 count) with
       | None => None
       | Some i => let '(b, i) := absorb_in hf big (buf c) i in option_map (pair b) (copy_to i 0 (repeat 0 56))
       end
     else option_map (pair (buf c)) (copy_to (inc c) n (128 :: repeat 0 (count - 8))))
  with
  | None => UB
  | Some (b, i) =>
    match copy_to (byteReverse hf big i 14) 56 (store big (bits0 c) ++ store big (bits1 c)) with
    | None => UB
    | Some i =>
      let b := MD5Transform b (words big 16 i) in
      Ok (byteReverse hf big (store big (fa b) ++ store big (fb b) ++ store big (fc b) ++ store big (fd b)) 4)
    end
  end.

(** A sequence of MD5Update calls. *)
Fixpoint updates (hf big : bool) (c : ctx) (l : list (list Z)) : res ctx :=
  match l with [] => Ok c | d :: l => bind (MD5Update hf big c d) (fun c => updates hf big c l) end.

(** ** md5_crypt.c *)
(** itoa64, modules/pam_unix/md5_crypt.c:21-22. *)
Definition itoa64 : cstr := lit "./0123456789ABCDEFGHIJKLMNOPQRSTUVWXYZabcdefghijklmnopqrstuvwxyz".
(** to64, modules/pam_unix/md5_crypt.c:24-30. *)
Fixpoint to64 (v : Z) (n : nat) : cstr :=
  match n with O => [] | S n => nth (Z.to_nat (Z.land v 63)) itoa64 NUL :: to64 (Z.shiftr v 6) n end.
(** The octets of a string. *)
Definition codes (s : cstr) : list Z := map (fun c => Z.of_N (N_of_ascii c)) s.
(** The salt proper, modules/pam_unix/md5_crypt.c:51-63: at most [n] more characters. *)
Fixpoint upto_dollar (n : nat) (s : cstr) : cstr :=
  match n, s with
  | S n, c :: s => if Ascii.eqb c "$"%char then [] else c :: upto_dollar n s
  | _, _ => []
  end.
(** The same, after the magic string. *)
Definition refine (salt : cstr) : cstr := upto_dollar 8 (if is_prefix (lit "$1$") salt then skipn 3 salt else salt).

Section Crypt.
Variable hf big : bool.
(** What the uninitialised input buffers contain. *)
Variable junk : list Z.
(** MD5Init, MD5Update for each piece, MD5Final. *)
Definition digest (l : list (list Z)) : res (list Z) := bind (updates hf big (MD5Init junk) l) (MD5Final hf big).

(** The pieces of the loop at modules/pam_unix/md5_crypt.c:82-83: [pl] octets of the digest [final], 16 at a time. *)
Fixpoint chunks (fuel pl : nat) (final : list Z) : list (list Z) :=
  match fuel with
  | O => []
  | S fuel => if (0 <? pl)%nat then (if (16 <? pl)%nat then final else firstn pl final) :: chunks fuel (pl - 16) final else []
  end.
(** The pieces of the loop at modules/pam_unix/md5_crypt.c:89-93, when [final] has been overwritten with zeros and j is 0;
    reading pw[0] is reading the terminator only if pw is empty, but then the loop does not run. *)
Fixpoint weird (fuel : nat) (i : nat) (pw : list Z) : list (list Z) :=
  match fuel with
  | O => []
  | S fuel => if (i =? 0)%nat then [] else (if Nat.odd i then [0] else firstn 1 pw) :: weird fuel (Nat.div2 i) pw
  end.
(** One turn of the loop at modules/pam_unix/md5_crypt.c:102-120. *)
Definition turn_pieces (i : nat) (pw sp final : list Z) : list (list Z) :=
  ((if Nat.odd i then pw else final) ::
   (if (i mod 3 =? 0)%nat then [] else [sp]) ++
   (if (i mod 7 =? 0)%nat then [] else [pw]) ++
   [if Nat.odd i then final else pw]).
(** [n] turns from [i] on. *)
Fixpoint turns (n i : nat) (pw sp final : list Z) : res (list Z) :=
  match n with O => Ok final | S n => bind (digest (turn_pieces i pw sp final)) (turns n (S i) pw sp) end.
(** Three octets of the digest as one number, modules/pam_unix/md5_crypt.c:124. *)
Definition at3 (f : list Z) (i j k : nat) : Z := Z.lor (Z.lor (Z.shiftl (nth i f 0) 16) (Z.shiftl (nth j f 0) 8)) (nth k f 0).
(** The output characters, modules/pam_unix/md5_crypt.c:124-141. *)
Definition encode (f : list Z) : cstr :=
  (to64 (at3 f 0 6 12) 4 ++ to64 (at3 f 1 7 13) 4 ++ to64 (at3 f 2 8 14) 4 ++ to64 (at3 f 3 9 15) 4 ++ to64 (at3 f 4 10 5) 4 ++ to64 (nth 11 f 0%Z) 2)%list.
(** crypt_md5, modules/pam_unix/md5_crypt.c:38-152; [mem]: pam_asprintf has memory. strlen(pw) is assumed to fit an int. *)
Definition crypt_md5 (mem : bool) (pw salt : cstr) : res (option cstr) :=
  let sp := refine salt in
  let p := codes pw in
  bind (digest [p; codes sp; p]) (fun final =>
  bind (digest ([p; codes (lit "$1$"); codes sp] ++ chunks (S (length p)) (length p) final ++ weird (S (length p)) (length p) p)) (fun final =>
  bind (turns 1000 0 p (codes sp) final) (fun final =>
  Ok (if mem then Some (lit "$1$" ++ sp ++ "$"%char :: encode final)%list else None)))).
End Crypt.
