(** Model of modules/pam_timestamp/sha1.c and of hmac_sha1_generate in hmacsha1.c, on octets (Z from 0 to 255) and
    uint32_t values. htonl of a word read from memory is the word whose most significant octet comes first, on
    machines of either byte order; so the model does not depend on the byte order. *)
From Coq Require Import List Arith ZArith Bool.
From Verif Require Import Base.
Import ListNotations.
Local Open Scope Z_scope.

(** uint32_t arithmetic: modulo 2^32. *)
Definition u32 (x : Z) : Z := x mod 2 ^ 32.

(** F, modules/pam_timestamp/sha1.c:60-64. *)
Definition F (b c d : Z) : Z := Z.lor (Z.land b c) (Z.land (u32 (Z.lnot b)) d).
(** G, modules/pam_timestamp/sha1.c:66-70. *)
Definition G (b c d : Z) : Z := Z.lxor (Z.lxor b c) d.
(** H, modules/pam_timestamp/sha1.c:72-76. *)
Definition H (b c d : Z) : Z := Z.lor (Z.lor (Z.land b c) (Z.land b d)) (Z.land c d).
(** RL, modules/pam_timestamp/sha1.c:78-82. *)
Definition RL (n s : Z) : Z := Z.lor (u32 (Z.shiftl n s)) (Z.shiftr n (32 - s)).
(** sha1_round, modules/pam_timestamp/sha1.c:84-90. *)
Definition sha1_round (func : Z -> Z -> Z -> Z) (a b c d e i n : Z) : Z := u32 (RL a 5 + func b c d + e + i + n).

(** a, b, c, d, e of struct sha1_context, modules/pam_timestamp/sha1.h:57. *)
Record regs := mkRegs { ra : Z; rb : Z; rc : Z; rd : Z; re : Z }.
(** struct sha1_context, modules/pam_timestamp/sha1.h:49-58; [count] is written but never read and is left out. *)
Record ctx := mkCtx { pending : list Z; counts0 : Z; counts1 : Z; pending_count : nat; abcde : regs }.

(** sha1_init, modules/pam_timestamp/sha1.c:92-101. *)
Definition sha1_init : ctx :=
  mkCtx (repeat 0 64) 0 0 0 (mkRegs 1732584193 4023233417 2562383102 271733878 3285377520).

(** Words of the buffer after htonl, modules/pam_timestamp/sha1.c:110-112: [n] words. *)
Fixpoint words_of (n : nat) (b : list Z) : list Z :=
  match n, b with
  | S n, x0 :: x1 :: x2 :: x3 :: b => x0 * 16777216 + x1 * 65536 + x2 * 256 + x3 :: words_of n b
  | _, _ => []
  end.
(** data[i] for i from 16 on, modules/pam_timestamp/sha1.c:113-115: [n] turns, the words so far in order. *)
Fixpoint extend (n : nat) (data : list Z) : list Z :=
  match n with
  | O => data
  | S n =>
      let i := length data in
      extend n (data ++ [RL (Z.lxor (Z.lxor (Z.lxor (nth (i - 3) data 0) (nth (i - 8) data 0)) (nth (i - 14) data 0)) (nth (i - 16) data 0)) 1])
  end.
(** One of the four loops, modules/pam_timestamp/sha1.c:123-138: over the 20 words given. *)
Fixpoint rounds (func : Z -> Z -> Z -> Z) (k : Z) (ws : list Z) (r : regs) : regs :=
  match ws with
  | [] => r
  | w :: ws =>
      let temp := sha1_round func (ra r) (rb r) (rc r) (rd r) (re r) w k in
      rounds func k ws (mkRegs temp (ra r) (RL (rb r) 30) (rc r) (rd r))
  end.
(** sha1_process, modules/pam_timestamp/sha1.c:103-148; the buffer is overwritten with zeros. *)
Definition sha1_process (r : regs) (buffer : list Z) : regs * list Z :=
  let data := extend 64 (words_of 16 buffer) in
  let s := rounds F 1518500249 (firstn 20 data) r in
  let s := rounds G 1859775393 (firstn 20 (skipn 20 data)) s in
  let s := rounds H 2400959708 (firstn 20 (skipn 40 data)) s in
  let s := rounds G 3395469782 (firstn 20 (skipn 60 data)) s in
  (mkRegs (u32 (ra r + ra s)) (u32 (rb r + rb s)) (u32 (rc r + rc s)) (u32 (rd r + rd s)) (u32 (re r + re s)), repeat 0 64).

(** memcpy of [l] to offset [o] of a buffer; None outside its bounds. *)
Definition copy_to (buf : list Z) (o : nat) (l : list Z) : option (list Z) :=
  if (o + length l <=? length buf)%nat then Some (firstn o buf ++ l ++ skipn (o + length l) buf) else None.

(** The loop of sha1_update, modules/pam_timestamp/sha1.c:157-165: the context and the data not yet consumed. *)
Fixpoint update_loop (fuel : nat) (c : ctx) (data : list Z) : res (ctx * list Z) :=
  match fuel with
  | O => OutOfFuel
  | S fuel =>
      if (64 <=? length data + pending_count c)%nat then
        let t := (64 - pending_count c)%nat in
        match copy_to (pending c) (pending_count c) (firstn t data) with
        | None => UB
        | Some p =>
            let '(r, p) := sha1_process (abcde c) p in
            update_loop fuel (mkCtx p (counts0 c) (counts1 c) 0 r) (skipn t data)
        end
      else Ok (c, data)
  end.
(** sha1_update, modules/pam_timestamp/sha1.c:150-183; [length] is a size_t, added to a uint32_t. *)
Definition sha1_update (c : ctx) (data : list Z) : res ctx :=
  bind (update_loop (S (length data)) c data) (fun '(c, rest) =>
    match copy_to (pending c) (pending_count c) rest with
    | None => UB
    | Some p =>
        let n := Z.of_nat (length data) in
        let c0 := u32 (counts0 c + n) in
        Ok (mkCtx p (if n =? 0 then counts0 c else c0)
              (if n =? 0 then counts1 c else if c0 <=? counts0 c then u32 (counts1 c + 1) else counts1 c)
              (pending_count c + length rest) (abcde c))
    end).

(** The octets of a word as written to out, modules/pam_timestamp/sha1.c:226-250, and of htonl of a word in memory. *)
Definition be4 (x : Z) : list Z :=
  [Z.land (Z.shiftr x 24) 255; Z.land (Z.shiftr x 16) 255; Z.land (Z.shiftr x 8) 255; Z.land x 255].

(** sha1_output, modules/pam_timestamp/sha1.c:185-254, with out not NULL; it works on a copy of the context. *)
Definition sha1_output (c : ctx) : res (list Z) :=
  let n := pending_count c in
  match copy_to (pending c) n (128 :: repeat 0 (63 - n)) with
  | None => UB
  | Some p =>
      let '(r, p) :=
        if (56 <=? n)%nat
        then let '(r, _) := sha1_process (abcde c) p in
             (r, (if (n =? 64)%nat then 128 else 0) :: repeat 0 63)
        else (abcde c, p) in
      let hi := u32 (Z.shiftl (counts1 c) 3) in
      let hi := if Z.shiftr (counts0 c) 29 =? 0 then hi else Z.lor hi (Z.shiftr (counts0 c) 29) in
      let lo := u32 (Z.shiftl (counts0 c) 3) in
      let '(r, _) := sha1_process r (firstn 56 p ++ be4 hi ++ be4 lo) in
      Ok (be4 (ra r) ++ be4 (rb r) ++ be4 (rc r) ++ be4 (rd r) ++ be4 (re r))
  end.

(** A sequence of sha1_update calls. *)
Fixpoint sha1_updates (c : ctx) (l : list (list Z)) : res ctx :=
  match l with [] => Ok c | d :: l => bind (sha1_update c d) (fun c => sha1_updates c l) end.

(** xor_block, modules/pam_timestamp/hmacsha1.c:194-201. *)
Definition xor_block (p : list Z) (byte : Z) : list Z := map (fun x => Z.lxor x byte) p.

(** hmac_sha1_generate, modules/pam_timestamp/hmacsha1.c:203-266, without HMAC_ALLOW_SHORT_KEYS; None: *mac stays NULL; [mem]: malloc succeeds. *)
Definition hmac_sha1_generate (mem : bool) (raw_key text : list Z) : res (option (list Z)) :=
  if (length raw_key <? 20)%nat then Ok None
  else
    bind (if (64 <? length raw_key)%nat
          then bind (sha1_update sha1_init raw_key) (fun c => bind (sha1_output c) (fun d => Ok (d ++ repeat 0 44)))
          else Ok (raw_key ++ repeat 0 (64 - length raw_key))) (fun key =>
    bind (sha1_update sha1_init (xor_block key 54)) (fun c =>
    bind (sha1_update c text) (fun c =>
    bind (sha1_output c) (fun inner =>
    bind (sha1_update sha1_init (xor_block key 92)) (fun c =>
    bind (sha1_update c inner) (fun c =>
    bind (sha1_output c) (fun outer =>
    Ok (if mem then Some outer else None)))))))).
