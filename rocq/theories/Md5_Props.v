(** C56: the MD5 functions of pam_unix. *)
From Coq Require Import String Ascii List Arith NArith ZArith Bool Lia.
From Verif Require Import Base Hash_Spec Hash_Facts Str_Model Md5_Model.
Import ListNotations.
Local Open Scope Z_scope.

(** ** Words in memory *)
Lemma lor_add : forall a b s, 0 <= s -> 0 <= b < 2 ^ s -> Z.lor (Z.shiftl a s) b = a * 2 ^ s + b.
Proof.
  intros a b s S B. rewrite <- Z.shiftl_mul_pow2 by exact S.
  assert (L : Z.land (Z.shiftl a s) b = 0); [|rewrite Z.add_nocarry_lxor by exact L; symmetry; apply Z.lxor_lor; exact L].
  apply Z.bits_inj'. intros n N. rewrite Z.land_spec, Z.bits_0. destruct (Z_lt_le_dec n s) as [L|L]; [rewrite Z.shiftl_spec_low by exact L; reflexivity|].
  replace (Z.testbit b n) with false; [apply andb_false_r|]. symmetry. destruct (Z.eq_dec b 0) as [-> |NZ]; [apply Z.bits_0|].
  apply Z.bits_above_log2; [lia|]. apply Z.lt_le_trans with s; [|exact L]. apply Z.log2_lt_pow2; lia.
Qed.
Lemma reversed_word : forall p0 p1 p2 p3, octet p0 -> octet p1 -> octet p2 -> octet p3 ->
  Z.lor (u32 (Z.shiftl (Z.lor (Z.shiftl p3 8) p2) 16)) (Z.lor (Z.shiftl p1 8) p0) = word_le [p0; p1; p2; p3].
Proof.
  intros p0 p1 p2 p3 O0 O1 O2 O3. unfold octet in *. rewrite !(lor_add _ _ 8) by lia. unfold u32. rewrite Z.mod_small; rewrite Z.shiftl_mul_pow2 by lia; [|lia].
  rewrite <- Z.shiftl_mul_pow2 by lia. rewrite lor_add by lia. unfold word_le. cbn [fold_right]. lia.
Qed.
Lemma store_octets : forall x, word x -> store false x = octets_le 4 x /\ store true x = rev (octets_le 4 x).
Proof.
  intros x W. unfold store. rewrite !land255, !Z.shiftr_div_pow2 by lia. cbn [octets_le]. rewrite !Z.div_div by lia. split; reflexivity.
Qed.
Lemma store_length : forall big x, length (store big x) = 4%nat.
Proof. intros [] x; reflexivity. Qed.
Lemma octets_value : forall x, word x -> word_le (octets_le 4 x) = x.
Proof.
  intros x W. unfold word_le, word in *. cbn [octets_le fold_right]. 
  pose proof (Z.div_mod x 256 ltac:(discriminate)) as D0. pose proof (Z.div_mod (x / 256) 256 ltac:(discriminate)) as D1. pose proof (Z.div_mod (x / 256 / 256) 256 ltac:(discriminate)) as D2.
  assert (S : (x / 256 / 256 / 256) mod 256 = x / 256 / 256 / 256). { rewrite !Z.div_div by lia. apply Z.mod_small. split; [apply Z.div_pos; lia|apply Z.div_lt_upper_bound; lia]. }
  rewrite S. lia.
Qed.
Lemma load_store : forall big x, word x -> load big (store big x) = x.
Proof.
  intros big x W. destruct (store_octets x W) as [E1 E2]. pose proof (octets_value x W) as V. unfold word_le in V. cbn [octets_le fold_right] in V.
  destruct big; [rewrite E2|rewrite E1]; cbn [octets_le rev app load]; lia.
Qed.
Lemma word_le_word : forall l, length l = 4%nat -> Forall octet l -> word (word_le l).
Proof.
  intros l L O. destruct l as [|a [|b [|c [|d [|]]]]]; try discriminate. inversion O as [|? ? A O1]; subst. inversion O1 as [|? ? B O2]; subst. inversion O2 as [|? ? C O3]; subst. inversion O3 as [|? ? D O4]; subst.
  unfold word_le, word, octet in *. cbn [fold_right]. lia.
Qed.
Lemma load_le : forall l, length l = 4%nat -> load false l = word_le l.
Proof. intros l L. destruct l as [|a [|b [|c [|d [|]]]]]; try discriminate. unfold word_le. cbn [load fold_right]. lia. Qed.

(** The code is compiled so that words are read with the first octet least significant. *)
Definition sound (hf big : bool) : Prop := hf = true \/ big = false.

Lemma words_app : forall big n k l r, length l = (4 * n)%nat -> words big (n + k) (l ++ r) = words big n l ++ words big k r.
Proof.
  intros big n k. induction n as [|n IH]; intros l r L; [destruct l; [reflexivity|cbn [length] in L; lia]|]. cbn [Nat.add words app].
  rewrite firstn_app, skipn_app. replace (4 - length l)%nat with 0%nat by lia. rewrite firstn_O, skipn_O, app_nil_r, IH by (rewrite skipn_length; lia). reflexivity.
Qed.
Lemma words_one : forall big x, word x -> words big 1 (store big x) = [x].
Proof. intros big x W. cbn [words]. rewrite firstn_all2 by (rewrite store_length; lia). rewrite load_store by exact W. reflexivity. Qed.
Lemma reverse_words : forall hf big n l, sound hf big -> (4 * n <= length l)%nat -> Forall octet (firstn (4 * n) l) ->
  exists l', byteReverse hf big l n = l' ++ skipn (4 * n) l /\ length l' = (4 * n)%nat /\ words big n l' = map word_le (pieces 4 n l).
Proof.
  intros hf big n l G. revert l. induction n as [|n IH]; intros l L O; [exists []; split; [reflexivity|split; reflexivity]|].
  destruct l as [|p0 [|p1 [|p2 [|p3 l]]]]; cbn [length] in L; try lia.
  assert (Q : (4 * S n = 4 + 4 * n)%nat) by lia. rewrite Q in *. cbn [Nat.add firstn] in O.
  inversion O as [|? ? O0 O']; subst. inversion O' as [|? ? O1 O'']; subst. inversion O'' as [|? ? O2 O3]; subst. inversion O3 as [|? ? O4 O5]; subst.
  destruct (IH l) as (l' & E & LL & W); [lia|exact O5|]. cbn [Nat.add skipn pieces firstn map].
  destruct hf.
  - cbn [byteReverse]. rewrite reversed_word by assumption. rewrite E. exists (store big (word_le [p0; p1; p2; p3]) ++ l'). split; [rewrite <- app_assoc; reflexivity|]. split; [rewrite app_length, store_length; lia|].
    rewrite (words_app big 1 n) by apply store_length. cbn [words]. rewrite firstn_all2 by (rewrite store_length; lia). rewrite load_store, W; [reflexivity|]. apply word_le_word; [reflexivity|repeat (apply Forall_cons; [assumption|]); apply Forall_nil].
  - destruct G as [G|G]; [discriminate|subst big]. exists (p0 :: p1 :: p2 :: p3 :: l'). assert (R : forall k, byteReverse false false l k = l) by (intros [|]; reflexivity).
    rewrite R in E. split; [cbn [byteReverse app]; rewrite <- E; reflexivity|]. split; [cbn [length]; lia|]. cbn [words firstn skipn]. rewrite W, load_le by reflexivity. reflexivity.
Qed.
Lemma reverse_store : forall hf big, sound hf big -> forall ws, Forall word ws -> byteReverse hf big (concat (map (store big) ws)) (length ws) = concat (map (octets_le 4) ws).
Proof.
  intros hf big S ws W. induction W as [|x ws W1 W2 IH]; [reflexivity|]. cbn [map concat length].
  destruct (store_octets x W1) as [SF ST]. destruct hf.
  - destruct (store big x) as [|p0 [|p1 [|p2 [|p3 [|]]]]] eqn:E; try (apply (f_equal (@length Z)) in E; rewrite store_length in E; discriminate). cbn [byteReverse app]. rewrite IH.
    assert (O : Forall octet [p0; p1; p2; p3]) by (rewrite <- E; destruct big; [rewrite ST; apply Forall_rev|rewrite SF]; apply octets_le_octet).
    inversion O as [|? ? O0 O']; subst. inversion O' as [|? ? O1 O'']; subst. inversion O'' as [|? ? O2 O3]; subst. inversion O3 as [|? ? O4 O5]; subst.
    rewrite reversed_word by assumption. f_equal.
    assert (W : word (word_le [p0; p1; p2; p3])) by (apply word_le_word; [reflexivity|exact O]). destruct (store_octets _ W) as [SF' ST']. destruct big.
    + rewrite ST'. rewrite <- (rev_involutive (octets_le 4 x)). f_equal. rewrite <- ST, E. unfold octet in *. unfold word_le. cbn [fold_right octets_le].
      assert (Q : forall a b, 0 <= a < 256 -> (a + 256 * b) mod 256 = a /\ (a + 256 * b) / 256 = b).
      { intros a b H. split; [rewrite Z.add_comm, Z.mul_comm, Z.add_comm, Z.mod_add, Z.mod_small by lia; reflexivity|rewrite Z.mul_comm, Z.div_add, Z.div_small by lia; reflexivity]. }
      rewrite (proj1 (Q p0 _ O0)), (proj2 (Q p0 _ O0)), (proj1 (Q p1 _ O1)), (proj2 (Q p1 _ O1)), (proj1 (Q p2 _ O2)), (proj2 (Q p2 _ O2)). rewrite (proj1 (Q p3 0 O4)). reflexivity.
    + rewrite SF', <- E, SF. rewrite octets_value by exact W1. reflexivity.
  - destruct S as [S|S]; [discriminate|subst big]. rewrite SF. cbn [byteReverse]. f_equal. clear - W2. induction W2 as [|x ws W1 W2 IH]; [reflexivity|]. cbn [map concat]. rewrite (proj1 (store_octets x W1)), IH. reflexivity.
Qed.

(** ** The compression function *)
Lemma F1_choose : forall x y z, word x -> word y -> word z -> F1 x y z = Z.lor (Z.land x y) (Z.land (not32 x) z).
Proof.
  intros x y z X Y Z0. unfold F1. apply Z.bits_inj'. intros n N. rewrite Z.lxor_spec, Z.lor_spec, !Z.land_spec, Z.lxor_spec, not32_bits by assumption.
  destruct (Z.ltb_spec n 32) as [L|L]; [destruct (Z.testbit x n), (Z.testbit y n), (Z.testbit z n); reflexivity|].
  apply word_bits in X, Y, Z0. destruct X as [_ X], Y as [_ Y], Z0 as [_ Z0]. rewrite X, Z0 by exact L. reflexivity.
Qed.

Definition fstate (f : file) (r : reg * reg * reg * reg) : md5_state := let '(w, x, y, z) := r in (get f w, get f x, get f y, get f z).
Definition words4 (s : md5_state) : Prop := let '(a, b, c, d) := s in word a /\ word b /\ word c /\ word d.
(** Which variable plays which role at step [i]. *)
Definition roles (i : nat) : reg * reg * reg * reg :=
  match (i mod 4)%nat with 0%nat => (A, B, C, D) | 1%nat => (D, A, B, C) | 2%nat => (C, D, A, B) | _ => (B, C, D, A) end.
Definition fn_of (i : nat) : Z -> Z -> Z -> Z := match (i / 16)%nat with 0%nat => F1 | 1%nat => F2 | 2%nat => F3 | _ => F4 end.
Definition row_of (i : nat) : row := (fn_of i, roles i, md5_index i, nth i md5_t 0, md5_shift i).
Lemma rows_table : rows = map row_of (seq 0 64).
Proof. reflexivity. Qed.
Lemma md5_shift_range : forall i, 0 < md5_shift i < 32.
Proof.
  intro i. unfold md5_shift. assert (L : (i mod 4 < 4)%nat) by (apply Nat.mod_upper_bound; discriminate).
  destruct (i mod 4)%nat as [|[|[|[|]]]]; [| | | |lia]; destruct (i / 16)%nat as [|[|[|]]]; cbn; lia.
Qed.
Lemma fn_of_f : forall i x y z, word x -> word y -> word z -> fn_of i x y z = md5_f i x y z.
Proof.
  intros i x y z X Y Z0. unfold fn_of, md5_f. destruct (i / 16)%nat as [|[|[|]]].
  - apply F1_choose; assumption.
  - unfold F2. rewrite F1_choose by assumption. f_equal; apply Z.land_comm.
  - reflexivity.
  - unfold F4, u32. rewrite not32_lnot by assumption. reflexivity.
Qed.
Lemma roles_next : forall i, roles (S i) = let '(w, x, y, z) := roles i in (z, w, x, y).
Proof.
  intro i. unfold roles. replace (S i) with (i + 1)%nat by lia. rewrite (Nat.add_mod i 1 4) by discriminate. assert (L : (i mod 4 < 4)%nat) by (apply Nat.mod_upper_bound; discriminate).
  destruct (i mod 4)%nat as [|[|[|[|]]]]; try reflexivity. lia.
Qed.
Lemma roles_distinct : forall i f v w x y z, roles i = (w, x, y, z) -> get (put f w v) w = v /\ get (put f w v) x = get f x /\ get (put f w v) y = get f y /\ get (put f w v) z = get f z.
Proof.
  intros i f v w x y z E. unfold roles in E. destruct (i mod 4)%nat as [|[|[|]]]; injection E as <- <- <- <-; repeat split.
Qed.
Lemma step_matches : forall inp i f, words4 (fstate f (roles i)) -> fstate (md5_step inp f (row_of i)) (roles (S i)) = Hash_Spec.md5_step inp (fstate f (roles i)) i /\
  words4 (fstate (md5_step inp f (row_of i)) (roles (S i))).
Proof.
  intros inp i f W. rewrite roles_next. unfold md5_step, row_of. destruct (roles i) as [[[w x] y] z] eqn:R. cbn [fstate] in *. destruct W as (W1 & W2 & W3 & W4).
  rewrite fn_of_f by assumption.
  match goal with |- context [put f w ?v] => destruct (roles_distinct i f v w x y z R) as (G1 & G2 & G3 & G4) end. rewrite G1, G2, G3, G4. unfold Hash_Spec.md5_step.
  pose proof (md5_shift_range i) as SR.
  set (sum := plus32 (get f w) (plus32 (md5_f i (get f x) (get f y) (get f z)) (plus32 (nth (md5_index i) inp 0) (nth i md5_t 0)))).
  assert (SW : word sum) by apply word_plus. change (u32 (get f w + u32 (md5_f i (get f x) (get f y) (get f z) + u32 (nth (md5_index i) inp 0 + nth i md5_t 0)))) with sum.
  unfold u32 at 1 3. unfold u32 at 1 2. destruct (rotl_lor sum (md5_shift i) SW SR) as [E _]. rewrite E. split.
  - unfold plus32. rewrite (Z.add_comm (get f x)). reflexivity.
  - cbn [words4]. split; [exact W4|]. split; [apply word_mod|]. split; assumption.
Qed.
Lemma steps_match : forall inp n i f, words4 (fstate f (roles i)) ->
  fstate (fold_left (md5_step inp) (map row_of (seq i n)) f) (roles (i + n)) = fold_left (Hash_Spec.md5_step inp) (seq i n) (fstate f (roles i)).
Proof.
  intros inp n. induction n as [|n IH]; intros i f W; [rewrite Nat.add_0_r; reflexivity|]. cbn [seq map fold_left]. destruct (step_matches inp i f W) as [E W'].
  rewrite <- E. replace (i + S n)%nat with (S i + n)%nat by lia. apply IH. exact W'.
Qed.
Definition st (f : file) : md5_state := (fa f, fb f, fc f, fd f).
Lemma compress_eq : forall h x b a b' c d, map word_le (pieces 4 16 b) = x -> fold_left (Hash_Spec.md5_step x) (seq 0 64) h = (a, b', c, d) ->
  md5_compress h b = let '(h0, h1, h2, h3) := h in (plus32 a h0, plus32 b' h1, plus32 c h2, plus32 d h3).
Proof. intros h x b a b' c d E Q. unfold md5_compress. rewrite E, Q. reflexivity. Qed.
Lemma transform_eq : forall f x g, fold_left (md5_step x) rows f = g -> MD5Transform f x = mkFile (u32 (fa f + fa g)) (u32 (fb f + fb g)) (u32 (fc f + fc g)) (u32 (fd f + fd g)).
Proof. intros f x g E. unfold MD5Transform. rewrite E. reflexivity. Qed.
Lemma transform_compress : forall f b x, words4 (st f) -> x = map word_le (pieces 4 16 b) -> st (MD5Transform f x) = md5_compress (st f) b /\ words4 (st (MD5Transform f x)).
Proof.
  intros f b x W E. symmetry in E. pose proof (steps_match x 64 0 f W) as Q. rewrite <- rows_table in Q. assert (R0 : fstate f (roles 0) = st f) by reflexivity. rewrite R0 in Q.
  remember (fold_left (md5_step x) rows f) as g eqn:Eg. symmetry in Eg. assert (R64 : fstate g (roles (0 + 64)) = (fa g, fb g, fc g, fd g)) by reflexivity. rewrite R64 in Q. clear R0 R64. symmetry in Q.
  rewrite (compress_eq (st f) x b _ _ _ _ E Q), (transform_eq f x g Eg). unfold st. cbn [fa fb fc fd]. split.
  - unfold plus32, u32. rewrite (Z.add_comm (fa f)), (Z.add_comm (fb f)), (Z.add_comm (fc f)), (Z.add_comm (fd f)). reflexivity.
  - cbn [words4]. repeat split; apply Z.mod_pos_bound; reflexivity.
Qed.

(** ** The stream *)
Notation absorb5 := (absorb md5_state md5_compress).
Section Stream.
Variable hf big : bool.
Hypothesis good : sound hf big.

Lemma absorb_in_compress : forall f i, words4 (st f) -> length i = 64%nat -> Forall octet i ->
  exists f' i', absorb_in hf big f i = (f', i') /\ st f' = md5_compress (st f) i /\ words4 (st f') /\ length i' = 64%nat.
Proof.
  intros f i W L O. unfold absorb_in. destruct (reverse_words hf big 16 i good) as (l' & E & LL & WW); [lia|rewrite firstn_all2 by lia; exact O|].
  rewrite E. rewrite skipn_all2 by lia. rewrite app_nil_r. destruct (transform_compress f i (words big 16 l') W WW) as [T1 T2]. eauto 8.
Qed.
Lemma copy_in : forall b o l, (o + length l <= length b)%nat -> copy_to b o l = Some (firstn o b ++ l ++ skipn (o + length l) b).
Proof. intros b o l L. unfold copy_to. apply Nat.leb_le in L. rewrite L. reflexivity. Qed.

Lemma blocks_absorb : forall fuel f i data, (length data < fuel)%nat -> Forall octet data -> length i = 64%nat -> words4 (st f) ->
  exists f' i' full rest n, blocks hf big fuel f i data = Ok (f', i') /\ data = full ++ rest /\ length full = (64 * n)%nat /\ (length rest < 64)%nat /\
    length i' = 64%nat /\ firstn (length rest) i' = rest /\ st f' = absorb5 (st f) full /\ words4 (st f').
Proof.
  induction fuel as [|fuel IH]; intros f i data FU OD LI W; [lia|]. cbn [blocks]. destruct (Nat.leb_spec 64 (length data)) as [G|G].
  - assert (LF : length (firstn 64 data) = 64%nat) by (rewrite firstn_length; lia). rewrite copy_in by lia. rewrite LF, firstn_O. cbn [app Nat.add]. rewrite (skipn_all2 i) by lia. rewrite app_nil_r.
    rewrite <- (firstn_skipn 64 data) in OD. apply Forall_app in OD. destruct OD as [O1 O2].
    destruct (absorb_in_compress f (firstn 64 data) W LF O1) as (f1 & i1 & E1 & S1 & W1 & L1). rewrite E1.
    destruct (IH f1 i1 (skipn 64 data)) as (f' & i' & full & rest & n & E & Q & A1 & A2 & A3 & A4 & A5 & A6); [rewrite skipn_length; lia|exact O2|exact L1|exact W1|].
    exists f', i', (firstn 64 data ++ full), rest, (S n). split; [exact E|]. split; [rewrite <- app_assoc, <- Q, firstn_skipn; reflexivity|]. split; [rewrite app_length; lia|].
    split; [exact A2|]. split; [exact A3|]. split; [exact A4|]. split; [|exact A6]. rewrite A5, S1, (absorb_app _ _ _ 1 (firstn 64 data)) by (rewrite LF; reflexivity). rewrite (absorb_one _ _ _ (firstn 64 data)) by exact LF. reflexivity.
  - rewrite copy_in by lia. rewrite firstn_O. cbn [app Nat.add]. eexists f, _, [], data, 0%nat. split; [reflexivity|]. split; [reflexivity|]. split; [reflexivity|]. split; [exact G|].
    split; [rewrite app_length, skipn_length; lia|]. split; [|split; [reflexivity|exact W]]. rewrite firstn_app, Nat.sub_diag, firstn_O, app_nil_r. apply firstn_all.
Qed.

(** The context after the octets [m]. *)
Definition holds (m : list Z) (c : ctx) : Prop :=
  exists full tail n, m = full ++ tail /\ length full = (64 * n)%nat /\ (length tail < 64)%nat /\
    length (inc c) = 64%nat /\ firstn (length tail) (inc c) = tail /\
    st (buf c) = absorb5 md5_start full /\ words4 (st (buf c)) /\
    word (bits0 c) /\ word (bits1 c) /\ bits1 c * 2 ^ 32 + bits0 c = (8 * Z.of_nat (length m)) mod 2 ^ 64.

Lemma pending_octets : forall b0 b1 (full tail : list Z) n, word b0 -> word b1 -> length full = (64 * n)%nat -> (length tail < 64)%nat ->
  b1 * 2 ^ 32 + b0 = (8 * Z.of_nat (length (full ++ tail))) mod 2 ^ 64 -> Z.to_nat (Z.land (Z.shiftr b0 3) 63) = length tail.
Proof.
  intros b0 b1 full tail n W0 W1 L T E. change 63 with (Z.ones 6). rewrite Z.land_ones, Z.shiftr_div_pow2 by lia. rewrite app_length, L in E.
  assert (Q : (b0 / 2 ^ 3) mod 2 ^ 6 = Z.of_nat (length tail)); [|rewrite Q; apply Nat2Z.id].
  pose proof (Z.div_mod (8 * Z.of_nat (64 * n + length tail)) (2 ^ 64) ltac:(discriminate)) as DM. rewrite <- E in DM.
  set (q := 8 * Z.of_nat (64 * n + length tail) / 2 ^ 64) in *. clearbody q.
  replace b0 with ((Z.of_nat (length tail) + (Z.of_nat n - b1 * 2 ^ 23 - q * 2 ^ 55) * 2 ^ 6) * 2 ^ 3) by lia. rewrite Z.div_mul by discriminate. rewrite Z.mod_add by discriminate. apply Z.mod_small. lia.
Qed.
Lemma bits_carry : forall c0 c1 n, word c0 -> word c1 -> 0 <= n < 2 ^ 32 ->
  let d0 := u32 (c0 + u32 (Z.shiftl n 3)) in let d1 := if d0 <? c0 then u32 (c1 + 1) else c1 in
  u32 (d1 + Z.shiftr n 29) * 2 ^ 32 + d0 = (c1 * 2 ^ 32 + c0 + 8 * n) mod 2 ^ 64.
Proof.
  intros c0 c1 n W0 W1 N. unfold word in *. cbv zeta. unfold u32. rewrite Z.shiftl_mul_pow2, Z.shiftr_div_pow2 by lia.
  assert (M : (n * 2 ^ 3) mod 2 ^ 32 = 8 * (n mod 2 ^ 29)) by (rewrite Z.mul_comm; change (2 ^ 32) with (2 ^ 3 * 2 ^ 29); rewrite Z.mul_mod_distr_l by discriminate; reflexivity). rewrite M.
  pose proof (Z.mod_pos_bound n (2 ^ 29) eq_refl) as MB. pose proof (Z.div_mod n (2 ^ 29) ltac:(discriminate)) as DM.
  assert (HB : 0 <= n / 2 ^ 29 < 8) by (split; [apply Z.div_pos; lia|apply Z.div_lt_upper_bound; lia]).
  set (h := n / 2 ^ 29) in *. set (l := n mod 2 ^ 29) in *. clearbody h l. clear M.
  assert (K : forall x k, 0 <= x -> x < k * 2 ^ 32 -> exists q, x = q * 2 ^ 32 + x mod 2 ^ 32 /\ 0 <= q < k /\ 0 <= x mod 2 ^ 32 < 2 ^ 32).
  { intros x k X XK. exists (x / 2 ^ 32). pose proof (Z.div_mod x (2 ^ 32) ltac:(discriminate)). pose proof (Z.mod_pos_bound x (2 ^ 32) eq_refl). split; [lia|]. split; [split; [apply Z.div_pos; lia|apply Z.div_lt_upper_bound; lia]|lia]. }
  destruct (Z_lt_le_dec (c0 + 8 * l) (2 ^ 32)) as [L|L].
  - rewrite (Z.mod_small (c0 + 8 * l)) by lia. destruct (Z.ltb_spec (c0 + 8 * l) c0) as [X|_]; [lia|].
    destruct (K (c1 + h) 2) as (q & E & Q & R); [lia|lia|]. symmetry. replace (c1 * 2 ^ 32 + c0 + 8 * n) with ((c1 + h) mod 2 ^ 32 * 2 ^ 32 + (c0 + 8 * l) + q * 2 ^ 64) by lia. rewrite Z.mod_add by discriminate. apply Z.mod_small. lia.
  - replace ((c0 + 8 * l) mod 2 ^ 32) with (c0 + 8 * l - 2 ^ 32) by (symmetry; rewrite <- (Z.mod_add _ (-1)) by discriminate; rewrite Z.mod_small; lia).
    destruct (Z.ltb_spec (c0 + 8 * l - 2 ^ 32) c0) as [_|X]; [|lia]. rewrite Z.add_mod_idemp_l by discriminate.
    destruct (K (c1 + 1 + h) 2) as (q & E & Q & R); [lia|lia|]. symmetry. replace (c1 * 2 ^ 32 + c0 + 8 * n) with ((c1 + 1 + h) mod 2 ^ 32 * 2 ^ 32 + (c0 + 8 * l - 2 ^ 32) + q * 2 ^ 64) by lia. rewrite Z.mod_add by discriminate. apply Z.mod_small. lia.
Qed.

Lemma update_holds : forall m c data, Forall octet m -> Forall octet data -> Z.of_nat (length data) < 2 ^ 32 -> holds m c ->
  exists c', MD5Update hf big c data = Ok c' /\ holds (m ++ data) c'.
Proof.
  intros m c data OM OD LD (full & tail & n & E & LF & LT & LI & FT & S & W & B0 & B1 & BB). subst m. apply Forall_app in OM. destruct OM as [OF OT].
  unfold MD5Update. cbv zeta. rewrite (pending_octets _ _ _ _ _ B0 B1 LF LT BB).
  set (b0 := u32 (bits0 c + u32 (Z.shiftl (Z.of_nat (length data)) 3))). set (b1 := u32 ((if b0 <? bits0 c then u32 (bits1 c + 1) else bits1 c) + Z.shiftr (Z.of_nat (length data)) 29)).
  assert (CB : word b0 /\ word b1 /\ b1 * 2 ^ 32 + b0 = (8 * Z.of_nat (length ((full ++ tail) ++ data))) mod 2 ^ 64).
  { split; [apply word_mod|]. split; [apply word_mod|]. subst b1 b0. rewrite bits_carry by (assumption || lia). rewrite BB. rewrite (app_length (full ++ tail)). rewrite Z.add_mod_idemp_l by discriminate. f_equal. lia. }
  clearbody b1 b0. destruct (Nat.eqb_spec (length tail) 0) as [T0|T0].
  - destruct tail; [|discriminate]. destruct (blocks_absorb (Datatypes.S (length data)) (buf c) (inc c) data) as (f' & i' & full' & rest & n' & EB & Q & A1 & A2 & A3 & A4 & A5 & A6); [lia|exact OD|exact LI|exact W|].
    rewrite EB. cbn [bind]. eexists. split; [reflexivity|]. exists (full ++ full'), rest, (n + n')%nat. cbn [inc buf bits0 bits1]. rewrite app_nil_r in *. split; [rewrite Q, app_assoc; reflexivity|]. split; [rewrite app_length; lia|].
    split; [exact A2|]. split; [exact A3|]. split; [exact A4|]. split; [rewrite A5, S, (absorb_app _ _ _ n) by exact LF; reflexivity|]. split; [exact A6|]. exact CB.
  - destruct (Nat.ltb_spec (length data) (64 - length tail)) as [G|G].
    + rewrite copy_in by lia. eexists. split; [reflexivity|]. exists full, (tail ++ data), n. cbn [inc buf bits0 bits1]. split; [rewrite app_assoc; reflexivity|]. split; [exact LF|]. split; [rewrite app_length; lia|].
      split; [rewrite !app_length, firstn_length, skipn_length; lia|]. split; [|tauto]. rewrite FT. rewrite app_assoc, firstn_app, Nat.sub_diag, firstn_O, app_nil_r. apply firstn_all.
    + assert (LFD : length (firstn (64 - length tail) data) = (64 - length tail)%nat) by (rewrite firstn_length; lia).
      rewrite copy_in by lia. rewrite LFD, FT. rewrite (skipn_all2 (inc c)) by lia. rewrite app_nil_r. rewrite <- (firstn_skipn (64 - length tail) data) in OD. apply Forall_app in OD. destruct OD as [O1 O2].
      set (block := tail ++ firstn (64 - length tail) data). assert (LB : length block = 64%nat) by (subst block; rewrite app_length; lia).
      destruct (absorb_in_compress (buf c) block W LB) as (f1 & i1 & E1 & S1 & W1 & L1); [subst block; apply Forall_app; auto|]. rewrite E1.
      destruct (blocks_absorb (Datatypes.S (length data)) f1 i1 (skipn (64 - length tail) data)) as (f' & i' & full' & rest & n' & EB & Q & A1 & A2 & A3 & A4 & A5 & A6); [rewrite skipn_length; lia|exact O2|exact L1|exact W1|].
      rewrite EB. cbn [bind]. eexists. split; [reflexivity|]. exists (full ++ block ++ full'), rest, (n + 1 + n')%nat. cbn [inc buf bits0 bits1].
      split; [subst block; rewrite <- !app_assoc, <- Q; rewrite firstn_skipn; reflexivity|]. split; [rewrite !app_length; lia|]. split; [exact A2|]. split; [exact A3|]. split; [exact A4|]. split; [|tauto].
      rewrite A5, S1, S, (absorb_app _ _ _ n) by exact LF. rewrite (absorb_app _ _ _ 1 block) by (rewrite LB; reflexivity). rewrite (absorb_one _ _ _ block) by exact LB. reflexivity.
Qed.
Lemma init_holds : forall junk, length junk = 64%nat -> holds [] (MD5Init junk).
Proof.
  intros junk L. exists [], [], 0%nat. cbn [MD5Init inc buf bits0 bits1 length firstn]. repeat split; unfold word; try lia; try exact L; try reflexivity; discriminate.
Qed.
Lemma updates_hold : forall l m c, Forall octet m -> Forall (Forall octet) l -> Forall (fun d => Z.of_nat (length d) < 2 ^ 32) l -> holds m c ->
  exists c', updates hf big c l = Ok c' /\ holds (m ++ concat l) c'.
Proof.
  induction l as [|d l IH]; intros m c OM OL LL HH; cbn [updates concat]; [exists c; rewrite app_nil_r; auto|].
  inversion OL as [|? ? O1 O2]; subst. inversion LL as [|? ? B1 B2]; subst. destruct (update_holds m c d OM O1 B1 HH) as (c1 & E & H1). rewrite E. cbn [bind].
  destruct (IH (m ++ d) c1) as (c' & E' & H'); [apply Forall_app; auto|exact O2|exact B2|exact H1|]. exists c'. rewrite E', app_assoc. auto.
Qed.

Lemma octet_zeros : forall n, Forall octet (repeat 0 n).
Proof. induction n as [|n IH]; cbn [repeat]; constructor; [unfold octet; lia|exact IH]. Qed.
Lemma length_octets : forall b0 b1 l, word b0 -> word b1 -> b1 * 2 ^ 32 + b0 = l mod 2 ^ 64 -> octets_le 8 l = octets_le 4 b0 ++ octets_le 4 b1.
Proof.
  intros b0 b1 l W0 W1 E. rewrite <- (octets_le_mod 8). change (256 ^ Z.of_nat 8) with (2 ^ 64). rewrite <- E. rewrite (octets_le_app 4 4). change (256 ^ Z.of_nat 4) with (2 ^ 32). f_equal.
  - rewrite <- (octets_le_mod 4 (_ + _)). change (256 ^ Z.of_nat 4) with (2 ^ 32). rewrite Z.add_comm, Z.mod_add by discriminate. rewrite Z.mod_small by exact W0. reflexivity.
  - rewrite Z.div_add_l by discriminate. rewrite (Z.div_small b0) by exact W0. rewrite Z.add_0_r. reflexivity.
Qed.
(** The last block: the first 56 octets of the buffer, then the length. *)
Lemma last_block : forall f i b0 b1, words4 (st f) -> length i = 64%nat -> Forall octet (firstn 56 i) -> word b0 -> word b1 ->
  exists j, copy_to (byteReverse hf big i 14) 56 (store big b0 ++ store big b1) = Some j /\
    st (MD5Transform f (words big 16 j)) = md5_compress (st f) (firstn 56 i ++ octets_le 4 b0 ++ octets_le 4 b1) /\ words4 (st (MD5Transform f (words big 16 j))).
Proof.
  intros f i b0 b1 W L O B0 B1. destruct (reverse_words hf big 14 i good) as (l' & E & LL & WW); [lia|exact O|]. rewrite E. change (4 * 14)%nat with 56%nat in *.
  rewrite copy_in by (rewrite !app_length, !store_length, skipn_length; lia). eexists. split; [reflexivity|]. rewrite app_length, !store_length. rewrite firstn_app, LL, Nat.sub_diag, firstn_O, app_nil_r, (firstn_all2 l') by lia.
  rewrite (skipn_all2 (l' ++ _)) by (rewrite app_length, skipn_length; lia). rewrite app_nil_r.
  apply transform_compress; [exact W|]. rewrite (words_app big 14 2) by exact LL. rewrite (words_app big 1 1) by apply store_length. rewrite !words_one by assumption.
  rewrite WW. rewrite (pieces_app 4 14 2) by (rewrite firstn_length; lia). rewrite (pieces_app 4 1 1) by reflexivity. rewrite !pieces_one by apply octets_le_length. rewrite map_app. cbn [map app]. rewrite !octets_value by assumption.
  f_equal. f_equal. rewrite <- (firstn_skipn 56 i) at 1. rewrite (pieces_app 4 14 0) by (rewrite firstn_length; lia). cbn [pieces]. apply app_nil_r.
Qed.
Lemma final_holds : forall m c, Forall octet m -> holds m c -> MD5Final hf big c = Ok (MD5 m).
Proof.
  intros m c OM (full & tail & n & E & LF & LT & LI & FT & S & W & B0 & B1 & BB). subst m. apply Forall_app in OM. destruct OM as [OF OT].
  unfold MD5Final. cbv zeta. rewrite (pending_octets _ _ _ _ _ B0 B1 LF LT BB). pose proof (length_octets _ _ _ B0 B1 BB) as LEN.
  unfold MD5. rewrite LEN. set (len := octets_le 4 (bits0 c) ++ octets_le 4 (bits1 c)) in *. assert (LL : length len = 8%nat) by (subst len; rewrite app_length, !octets_le_length; reflexivity).
  rewrite (padded_last full tail len n LF LT LL).
  match goal with |- context [fold_left md5_compress (pieces 64 (length ?p / 64) ?p) md5_start] => change (fold_left md5_compress (pieces 64 (length p / 64) p) md5_start) with (absorb5 md5_start p) end.
  rewrite (absorb_app _ _ _ n full) by exact LF. rewrite <- S.
  assert (OUT : forall f, words4 (st f) -> byteReverse hf big (store big (fa f) ++ store big (fb f) ++ store big (fc f) ++ store big (fd f)) 4 =
     let '(a, b, c, d) := st f in octets_le 4 a ++ octets_le 4 b ++ octets_le 4 c ++ octets_le 4 d).
  { intros f (X1 & X2 & X3 & X4). pose proof (reverse_store hf big good [fa f; fb f; fc f; fd f]) as R. cbn [map concat length] in R. rewrite !app_nil_r in R. rewrite R by (repeat (apply Forall_cons; [assumption|]); apply Forall_nil). reflexivity. }
  destruct (Nat.ltb_spec (63 - length tail) 8) as [G|G].
  - replace (56 <=? length tail)%nat with true by (symmetry; apply Nat.leb_le; lia).
    rewrite copy_in by (cbn [length]; rewrite repeat_length; lia). cbn [length]. rewrite repeat_length, FT. rewrite (skipn_all2 (inc c)) by lia. rewrite app_nil_r.
    set (b1 := tail ++ 128 :: repeat 0 (63 - length tail)). assert (L1 : length b1 = 64%nat) by (subst b1; rewrite app_length; cbn [length]; rewrite repeat_length; lia).
    destruct (absorb_in_compress (buf c) b1 W L1) as (f1 & i1 & E1 & S1 & W1 & LI1); [subst b1; apply Forall_app; split; [exact OT|]; constructor; [unfold octet; lia|apply octet_zeros]|]. rewrite E1.
    rewrite copy_in by (rewrite repeat_length; lia). cbn [option_map]. rewrite firstn_O, repeat_length. cbn [Nat.add app].
    assert (F56 : firstn 56 (repeat 0 56 ++ skipn 56 i1) = repeat 0 56) by (rewrite firstn_app, repeat_length, Nat.sub_diag, firstn_O, app_nil_r; apply firstn_all2; rewrite repeat_length; lia).
    destruct (last_block f1 (repeat 0 56 ++ skipn 56 i1) (bits0 c) (bits1 c) W1) as (j & EJ & SJ & WJ); [rewrite app_length, repeat_length, skipn_length; lia|rewrite F56; apply octet_zeros|exact B0|exact B1|].
    rewrite EJ. rewrite (OUT _ WJ), SJ, F56, S1. fold len.
    replace (tail ++ 128 :: repeat 0 (119 - length tail) ++ len) with (b1 ++ repeat 0 56 ++ len).
    2:{ subst b1. rewrite <- app_assoc. cbn [app]. f_equal. f_equal. rewrite app_assoc, <- repeat_app. f_equal. f_equal. lia. }
    rewrite (absorb_app _ _ _ 1 b1) by (rewrite L1; reflexivity). rewrite !absorb_one by (rewrite ?app_length, ?repeat_length; lia). reflexivity.
  - replace (56 <=? length tail)%nat with false by (symmetry; apply Nat.leb_gt; lia).
    rewrite copy_in by (cbn [length]; rewrite repeat_length; lia). cbn [option_map length]. rewrite repeat_length, FT. replace (63 - length tail - 8)%nat with (55 - length tail)%nat by lia. replace (length tail + Datatypes.S (55 - length tail))%nat with 56%nat by lia.
    set (b := tail ++ 128 :: repeat 0 (55 - length tail)). assert (LB : length b = 56%nat) by (subst b; rewrite app_length; cbn [length]; rewrite repeat_length; lia).
    replace (tail ++ (128 :: repeat 0 (55 - length tail)) ++ skipn 56 (inc c)) with (b ++ skipn 56 (inc c)) by (subst b; rewrite <- app_assoc; reflexivity).
    assert (F56 : firstn 56 (b ++ skipn 56 (inc c)) = b) by (rewrite firstn_app, LB, Nat.sub_diag, firstn_O, app_nil_r; apply firstn_all2; lia).
    destruct (last_block (buf c) (b ++ skipn 56 (inc c)) (bits0 c) (bits1 c) W) as (j & EJ & SJ & WJ); [rewrite app_length, skipn_length; lia| |exact B0|exact B1|].
    { rewrite F56. subst b. apply Forall_app. split; [exact OT|]. constructor; [unfold octet; lia|apply octet_zeros]. }
    rewrite EJ, (OUT _ WJ), SJ, F56. fold len. replace (tail ++ 128 :: repeat 0 (55 - length tail) ++ len) with (b ++ len) by (subst b; rewrite <- app_assoc; reflexivity).
    rewrite absorb_one by (rewrite app_length; lia). reflexivity.
Qed.
End Stream.

(** ** C56 *)
(** Compiled with HIGHFIRST, or on a little-endian machine without it: the digest is MD5 of the message, however it is cut
    into pieces and whatever was in the buffer. *)
Theorem digest_is_md5 : forall hf big junk l, hf = true \/ big = false -> length junk = 64%nat -> Forall (Forall octet) l -> Forall (fun d => Z.of_nat (length d) < 2 ^ 32) l ->
  digest hf big junk l = Ok (MD5 (concat l)).
Proof.
  intros hf big junk l G J OL LL. unfold digest. destruct (updates_hold hf big G l [] (MD5Init junk)) as (c & E & HH); [constructor|exact OL|exact LL|apply init_holds; exact J|].
  rewrite E. cbn [bind]. apply final_holds; [exact G| |exact HH]. cbn [app]. clear - OL. induction OL as [|d l O1 O2 IH]; cbn [concat]; [constructor|apply Forall_app; auto].
Qed.
Example digest_example : Forall (Forall octet) [[97]; []; [98; 99]] /\ digest true true (repeat 7 64) [[97]; []; [98; 99]] = Ok [144; 1; 80; 152; 60; 210; 79; 176; 214; 150; 63; 125; 40; 225; 127; 114].
Proof. split; [repeat constructor; cbn; discriminate|vm_compute; reflexivity]. Qed.
(** On a big-endian machine the functions named Broken compute something else. *)
Theorem broken_on_big_endian_refuted : exists junk l, length junk = 64%nat /\ Forall (Forall octet) l /\ exists d, digest false true junk l = Ok d /\ d <> MD5 (concat l).
Proof.
  exists (repeat 7 64), [[97; 98; 99]]. split; [reflexivity|]. split; [repeat constructor; cbn; discriminate|]. eexists. split; [vm_compute; reflexivity|]. vm_compute. discriminate.
Qed.

Print Assumptions digest_is_md5.
Print Assumptions broken_on_big_endian_refuted.
