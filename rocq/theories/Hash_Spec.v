(** The hash functions as their standards define them, on lists of octets: SHA-1 (FIPS 180-4), MD5 (RFC 1321) and
    HMAC (RFC 2104). Written from the standards, without reference to the code. *)
From Coq Require Import List Arith ZArith Bool.
Import ListNotations.
Local Open Scope Z_scope.

Definition octet (x : Z) : Prop := 0 <= x < 256.
Definition word (x : Z) : Prop := 0 <= x < 2 ^ 32.

(** Addition of words. *)
Definition plus32 (x y : Z) : Z := (x + y) mod 2 ^ 32.
(** Rotation to the left: the upper [s] bits move to the lower end. *)
Definition rotl (s x : Z) : Z := (x * 2 ^ s) mod 2 ^ 32 + x / 2 ^ (32 - s).
(** The complement of a word. *)
Definition not32 (x : Z) : Z := 2 ^ 32 - 1 - x.

(** Four octets as a word, the first the most or the least significant one. *)
Definition word_be (l : list Z) : Z := fold_left (fun v x => v * 256 + x) l 0.
Definition word_le (l : list Z) : Z := fold_right (fun x v => x + 256 * v) 0 l.
(** [k] octets of a number, the least significant first; the most significant first. *)
Fixpoint octets_le (k : nat) (x : Z) : list Z := match k with O => [] | S k => x mod 256 :: octets_le k (x / 256) end.
Definition octets_be (k : nat) (x : Z) : list Z := rev (octets_le k x).

(** [n] consecutive pieces of [size] elements. *)
Fixpoint pieces (size n : nat) (l : list Z) : list (list Z) :=
  match n with O => [] | S n => firstn size l :: pieces size n (skipn size l) end.

(** How many zero octets follow the octet 128, so that with 8 octets of length the whole is a multiple of 64. *)
Definition zeros (l : nat) : nat := (119 - l mod 64) mod 64.
Definition padded (len : list Z) (m : list Z) : list Z := m ++ 128 :: repeat 0 (zeros (length m)) ++ len.

(** ** SHA-1: FIPS 180-4, sections 4.1.1, 4.2.1, 5.1.1, 5.3.1, 6.1.2 *)
Definition sha1_f (t : nat) (x y z : Z) : Z :=
  if (t <? 20)%nat then Z.lxor (Z.land x y) (Z.land (not32 x) z)
  else if (t <? 40)%nat then Z.lxor (Z.lxor x y) z
  else if (t <? 60)%nat then Z.lxor (Z.lxor (Z.land x y) (Z.land x z)) (Z.land y z)
  else Z.lxor (Z.lxor x y) z.
Definition sha1_k (t : nat) : Z :=
  if (t <? 20)%nat then 1518500249 else if (t <? 40)%nat then 1859775393 else if (t <? 60)%nat then 2400959708 else 3395469782.
(** The message schedule, the newest word first: W(t-1), ..., W(0). *)
Fixpoint sha1_schedule (block : list Z) (n : nat) : list Z :=
  match n with
  | O => rev (map word_be (pieces 4 16 block))
  | S n => let w := sha1_schedule block n in
           rotl 1 (Z.lxor (Z.lxor (Z.lxor (nth 2 w 0) (nth 7 w 0)) (nth 13 w 0)) (nth 15 w 0)) :: w
  end.
Definition sha1_state := (Z * Z * Z * Z * Z)%type.
Definition sha1_step (w : Z) (t : nat) (s : sha1_state) : sha1_state :=
  let '(a, b, c, d, e) := s in
  (plus32 (rotl 5 a) (plus32 (sha1_f t b c d) (plus32 e (plus32 (sha1_k t) w))), a, rotl 30 b, c, d).
Definition sha1_compress (h : sha1_state) (block : list Z) : sha1_state :=
  let w := rev (sha1_schedule block 64) in
  let '(a, b, c, d, e) := fold_left (fun s t => sha1_step (nth t w 0) t s) (seq 0 80) h in
  let '(h0, h1, h2, h3, h4) := h in
  (plus32 a h0, plus32 b h1, plus32 c h2, plus32 d h3, plus32 e h4).
Definition sha1_start : sha1_state := (1732584193, 4023233417, 2562383102, 271733878, 3285377520).
Definition SHA1 (m : list Z) : list Z :=
  let p := padded (octets_be 8 (8 * Z.of_nat (length m))) m in
  let '(a, b, c, d, e) := fold_left sha1_compress (pieces 64 (length p / 64) p) sha1_start in
  octets_be 4 a ++ octets_be 4 b ++ octets_be 4 c ++ octets_be 4 d ++ octets_be 4 e.

(** ** MD5: RFC 1321, section 3 *)
(** 4294967296 times the absolute value of sin(i), the integer part, for i from 1 to 64. *)
Definition md5_t : list Z :=
  [3614090360; 3905402710; 606105819; 3250441966; 4118548399; 1200080426; 2821735955; 4249261313;
   1770035416; 2336552879; 4294925233; 2304563134; 1804603682; 4254626195; 2792965006; 1236535329;
   4129170786; 3225465664; 643717713; 3921069994; 3593408605; 38016083; 3634488961; 3889429448;
   568446438; 3275163606; 4107603335; 1163531501; 2850285829; 4243563512; 1735328473; 2368359562;
   4294588738; 2272392833; 1839030562; 4259657740; 2763975236; 1272893353; 4139469664; 3200236656;
   681279174; 3936430074; 3572445317; 76029189; 3654602809; 3873151461; 530742520; 3299628645;
   4096336452; 1126891415; 2878612391; 4237533241; 1700485571; 2399980690; 4293915773; 2240044497;
   1873313359; 4264355552; 2734768916; 1309151649; 4149444226; 3174756917; 718787259; 3951481745].
Definition md5_f (i : nat) (x y z : Z) : Z :=
  match (i / 16)%nat with
  | 0%nat => Z.lor (Z.land x y) (Z.land (not32 x) z)
  | 1%nat => Z.lor (Z.land x z) (Z.land y (not32 z))
  | 2%nat => Z.lxor (Z.lxor x y) z
  | _ => Z.lxor y (Z.lor x (not32 z))
  end.
(** Which word of the block, and by how much to rotate. *)
Definition md5_index (i : nat) : nat :=
  match (i / 16)%nat with
  | 0%nat => i mod 16
  | 1%nat => (1 + 5 * i) mod 16
  | 2%nat => (5 + 3 * i) mod 16
  | _ => (7 * i) mod 16
  end.
Definition md5_shift (i : nat) : Z :=
  nth (i mod 4) (match (i / 16)%nat with 0%nat => [7; 12; 17; 22] | 1%nat => [5; 9; 14; 20] | 2%nat => [4; 11; 16; 23] | _ => [6; 10; 15; 21] end) 0.
Definition md5_state := (Z * Z * Z * Z)%type.
(** One operation: a := b + ((a + F(b,c,d) + X[k] + T[i]) <<< s), then the roles move on by one. *)
Definition md5_step (x : list Z) (s : md5_state) (i : nat) : md5_state :=
  let '(a, b, c, d) := s in
  let sum := plus32 a (plus32 (md5_f i b c d) (plus32 (nth (md5_index i) x 0) (nth i md5_t 0))) in
  (d, plus32 b (rotl (md5_shift i) sum), b, c).
Definition md5_compress (h : md5_state) (block : list Z) : md5_state :=
  let x := map word_le (pieces 4 16 block) in
  let '(a, b, c, d) := fold_left (md5_step x) (seq 0 64) h in
  let '(h0, h1, h2, h3) := h in
  (plus32 a h0, plus32 b h1, plus32 c h2, plus32 d h3).
Definition md5_start : md5_state := (1732584193, 4023233417, 2562383102, 271733878).
(** The length is that of the message in bits, modulo 2^64. *)
Definition MD5 (m : list Z) : list Z :=
  let p := padded (octets_le 8 (8 * Z.of_nat (length m))) m in
  let '(a, b, c, d) := fold_left md5_compress (pieces 64 (length p / 64) p) md5_start in
  octets_le 4 a ++ octets_le 4 b ++ octets_le 4 c ++ octets_le 4 d.

(** ** HMAC: RFC 2104, section 2, with SHA-1 *)
Definition hmac_key (k : list Z) : list Z :=
  let k := if (64 <? length k)%nat then SHA1 k else k in
  k ++ repeat 0 (64 - length k).
Definition HMAC_SHA1 (k text : list Z) : list Z :=
  SHA1 (map (Z.lxor 92) (hmac_key k) ++ SHA1 (map (Z.lxor 54) (hmac_key k) ++ text)).

(** The examples of FIPS 180 and RFC 1321: "abc" and the empty text. *)
Example SHA1_abc : SHA1 [97; 98; 99] = [169; 153; 62; 54; 71; 6; 129; 106; 186; 62; 37; 113; 120; 80; 194; 108; 156; 208; 216; 157].
Proof. vm_compute. reflexivity. Qed.
Example MD5_abc : MD5 [97; 98; 99] = [144; 1; 80; 152; 60; 210; 79; 176; 214; 150; 63; 125; 40; 225; 127; 114].
Proof. vm_compute. reflexivity. Qed.
Example MD5_empty : MD5 [] = [212; 29; 140; 217; 143; 0; 178; 4; 233; 128; 9; 152; 236; 248; 66; 126].
Proof. vm_compute. reflexivity. Qed.
(** RFC 2202, test case 1: key 20 times 0x0b, "Hi There". *)
Example HMAC_SHA1_hi : HMAC_SHA1 (repeat 11 20) [72; 105; 32; 84; 104; 101; 114; 101] =
  [182; 23; 49; 134; 85; 5; 114; 100; 226; 139; 192; 182; 251; 55; 140; 142; 241; 70; 190; 0].
Proof. vm_compute. reflexivity. Qed.
