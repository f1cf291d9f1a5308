(** Facts about words, octets and the iteration of compression functions. *)
From Coq Require Import List Arith ZArith Bool Lia.
From Verif Require Import Hash_Spec.
Import ListNotations.
Local Open Scope Z_scope.

(** ** Words *)
Lemma word_bits : forall x, word x <-> 0 <= x /\ forall n, 32 <= n -> Z.testbit x n = false.
Proof.
  intro x. unfold word. split.
  - intros [P L]. split; [exact P|]. intros n N. destruct (Z.eq_dec x 0) as [-> |NZ]; [apply Z.bits_0|].
    apply Z.bits_above_log2; [lia|]. apply Z.lt_le_trans with 32; [|exact N]. apply Z.log2_lt_pow2; lia.
  - intros [P B]. split; [exact P|]. destruct (Z.eq_dec x 0) as [-> |NZ]; [reflexivity|]. apply Z.log2_lt_pow2; [lia|].
    destruct (Z_lt_le_dec (Z.log2 x) 32) as [L|L]; [exact L|]. specialize (B _ L). rewrite Z.bit_log2 in B by lia. discriminate.
Qed.
Lemma word_mod : forall x, word (x mod 2 ^ 32).
Proof. intro x. apply Z.mod_pos_bound. reflexivity. Qed.
Lemma word_lxor : forall x y, word x -> word y -> word (Z.lxor x y).
Proof.
  intros x y X Y. apply word_bits in X, Y. apply word_bits. destruct X as [X1 X2], Y as [Y1 Y2]. split; [apply Z.lxor_nonneg; tauto|].
  intros n N. rewrite Z.lxor_spec, X2, Y2 by exact N. reflexivity.
Qed.
Lemma word_plus : forall x y, word (plus32 x y).
Proof. intros x y. apply word_mod. Qed.

Lemma rotl_lor : forall x s, word x -> 0 < s < 32 -> Z.lor (Z.shiftl x s mod 2 ^ 32) (Z.shiftr x (32 - s)) = rotl s x /\ word (rotl s x).
Proof.
  intros x s W S. assert (E : Z.lor (Z.shiftl x s mod 2 ^ 32) (Z.shiftr x (32 - s)) = rotl s x).
  { unfold rotl. rewrite <- Z.shiftl_mul_pow2, <- Z.shiftr_div_pow2 by lia.
    assert (A : Z.land (Z.shiftl x s mod 2 ^ 32) (Z.shiftr x (32 - s)) = 0); [|rewrite Z.add_nocarry_lxor by exact A; symmetry; apply Z.lxor_lor; exact A].
    apply Z.bits_inj'. intros n N. rewrite Z.land_spec, Z.bits_0. apply word_bits in W. destruct W as [W1 W2].
    destruct (Z_lt_le_dec n s) as [L|L].
    - rewrite Z.mod_pow2_bits_low by lia. rewrite Z.shiftl_spec_low by exact L. reflexivity.
    - rewrite Z.shiftr_spec by exact N. rewrite (W2 (n + (32 - s))) by lia. apply andb_false_r. }
  split; [exact E|]. rewrite <- E. apply word_bits. apply word_bits in W. destruct W as [W1 W2]. split.
  - apply Z.lor_nonneg. split; [apply Z.mod_pos_bound; reflexivity|apply Z.shiftr_nonneg; exact W1].
  - intros n N. rewrite Z.lor_spec, Z.mod_pow2_bits_high by lia. rewrite Z.shiftr_spec by lia. rewrite W2 by lia. reflexivity.
Qed.

Lemma not32_lnot : forall x, word x -> Z.lnot x mod 2 ^ 32 = not32 x.
Proof.
  intros x W. unfold not32, word in *. unfold Z.lnot. replace (Z.pred (- x)) with (2 ^ 32 - 1 - x + (-1) * 2 ^ 32) by lia.
  rewrite Z.mod_add by discriminate. apply Z.mod_small. lia.
Qed.
Lemma not32_bits : forall x n, word x -> 0 <= n -> Z.testbit (not32 x) n = (n <? 32) && negb (Z.testbit x n).
Proof.
  intros x n W N. rewrite <- not32_lnot by exact W. destruct (Z.ltb_spec n 32) as [L|L].
  - rewrite Z.mod_pow2_bits_low by lia. rewrite Z.lnot_spec by exact N. reflexivity.
  - rewrite Z.mod_pow2_bits_high by lia. reflexivity.
Qed.
Lemma word_not32 : forall x, word x -> word (not32 x).
Proof. unfold word, not32. intros x W. lia. Qed.

(** Octets. *)
Lemma land255 : forall x, Z.land x 255 = x mod 256.
Proof. intro x. change 255 with (Z.ones 8). rewrite Z.land_ones by lia. reflexivity. Qed.

Lemma octets_le_length : forall k x, length (octets_le k x) = k.
Proof. induction k as [|k IH]; intro x; cbn [octets_le length]; auto. Qed.
Lemma octets_le_octet : forall k x, Forall octet (octets_le k x).
Proof. induction k as [|k IH]; intro x; cbn [octets_le]; constructor; [apply Z.mod_pos_bound; reflexivity|apply IH]. Qed.
Lemma octets_be_length : forall k x, length (octets_be k x) = k.
Proof. intros k x. unfold octets_be. rewrite rev_length. apply octets_le_length. Qed.
Lemma octets_be_octet : forall k x, Forall octet (octets_be k x).
Proof. intros k x. unfold octets_be. apply Forall_rev, octets_le_octet. Qed.
Lemma octets_le_app : forall j k x, octets_le (j + k) x = octets_le j x ++ octets_le k (x / 256 ^ Z.of_nat j).
Proof.
  induction j as [|j IH]; intros k x; cbn [octets_le Nat.add app].
  - rewrite Z.div_1_r. reflexivity.
  - rewrite IH. f_equal. f_equal. rewrite Z.div_div by lia. f_equal. rewrite Nat2Z.inj_succ, Z.pow_succ_r by lia. reflexivity.
Qed.
(** The octets depend on the number modulo a power of 256 only. *)
Lemma octets_le_mod : forall k x, octets_le k (x mod 256 ^ Z.of_nat k) = octets_le k x.
Proof.
  induction k as [|k IH]; intro x; [reflexivity|]. cbn [octets_le]. rewrite Nat2Z.inj_succ, Z.pow_succ_r by lia.
  assert (P : 0 < 256 ^ Z.of_nat k) by lia.
  rewrite Z.rem_mul_r by lia. f_equal.
  - rewrite Z.add_mod by lia. rewrite Z.mul_comm, Z.mod_mul by lia. rewrite Z.add_0_r, !Z.mod_mod by lia. reflexivity.
  - rewrite Z.add_comm, Z.mul_comm, Z.div_add_l by lia. rewrite (Z.div_small (x mod 256)) by (apply Z.mod_pos_bound; lia). rewrite Z.add_0_r. apply IH.
Qed.

(** ** Pieces *)
Lemma pieces_app : forall size n k a b, length a = (size * n)%nat -> pieces size (n + k) (a ++ b) = pieces size n a ++ pieces size k b.
Proof.
  intros size n k. induction n as [|n IH]; intros a b L; cbn [Nat.add pieces app].
  - destruct a; [reflexivity|]. cbn [length] in L. lia.
  - rewrite firstn_app, skipn_app. replace (size - length a)%nat with 0%nat by lia. cbn [firstn skipn]. rewrite app_nil_r. f_equal.
    apply IH. rewrite skipn_length. lia.
Qed.
Lemma pieces_length : forall size n l, length (pieces size n l) = n.
Proof. intros size n. induction n as [|n IH]; intro l; cbn [pieces length]; auto. Qed.
Lemma pieces_one : forall size a, length a = size -> pieces size 1 a = [a].
Proof. intros size a L. cbn [pieces]. rewrite firstn_all2 by lia. reflexivity. Qed.

Section Iterate.
Variable S : Type.
Variable compress : S -> list Z -> S.
(** The compression function over the whole blocks at the start of [m]. *)
Definition absorb (h : S) (m : list Z) : S := fold_left compress (pieces 64 (length m / 64) m) h.
Lemma absorb_app : forall h n a b, length a = (64 * n)%nat -> absorb h (a ++ b) = absorb (absorb h a) b.
Proof.
  intros h n a b L. unfold absorb. rewrite app_length, L. replace (64 * n + length b)%nat with (length b + n * 64)%nat by lia.
  rewrite Nat.div_add by discriminate. rewrite Nat.add_comm, (pieces_app 64 n) by exact L. rewrite fold_left_app.
  replace (64 * n)%nat with (n * 64)%nat by lia. rewrite Nat.div_mul by discriminate. reflexivity.
Qed.
Lemma absorb_one : forall h b, length b = 64%nat -> absorb h b = compress h b.
Proof. intros h b L. unfold absorb. rewrite L. change (64 / 64)%nat with 1%nat. rewrite pieces_one by exact L. reflexivity. Qed.
Lemma absorb_nil : forall h, absorb h [] = h.
Proof. reflexivity. Qed.
End Iterate.

(** What follows the whole blocks of a padded message: one block or two. *)
Lemma padded_last : forall full tail len n, length full = (64 * n)%nat -> (length tail < 64)%nat -> length len = 8%nat ->
  padded len (full ++ tail) = full ++ tail ++ 128 :: repeat 0 (if (56 <=? length tail)%nat then 119 - length tail else 55 - length tail) ++ len.
Proof.
  intros full tail len n L T E. unfold padded, zeros. rewrite app_length, L. replace (64 * n + length tail)%nat with (length tail + n * 64)%nat by lia.
  rewrite Nat.mod_add by discriminate. rewrite (Nat.mod_small (length tail)) by lia. rewrite <- app_assoc. do 5 f_equal.
  destruct (Nat.leb_spec 56 (length tail)) as [G|G].
  - apply Nat.mod_small. lia.
  - replace (119 - length tail)%nat with (55 - length tail + 1 * 64)%nat by lia. rewrite Nat.mod_add by discriminate. apply Nat.mod_small. lia.
Qed.
