(** C54, C55: the digest of pam_timestamp is SHA-1, and the authentication code computed with it is HMAC-SHA-1. *)
From Coq Require Import List Arith ZArith Bool Lia.
From Verif Require Import Base Hash_Spec Hash_Facts Sha1_Model.
Import ListNotations.
Local Open Scope Z_scope.

(** ** The functions on words *)
Lemma RL_rotl : forall x s, word x -> 0 < s < 32 -> RL x s = rotl s x.
Proof. intros x s W S. unfold RL, u32. apply (rotl_lor x s W S). Qed.
Lemma word_rotl : forall x s, word x -> 0 < s < 32 -> word (rotl s x).
Proof. intros x s W S. apply (rotl_lor x s W S). Qed.
Lemma F_choose : forall b c d, word b -> F b c d = Z.lxor (Z.land b c) (Z.land (not32 b) d).
Proof.
  intros b c d W. unfold F, u32. rewrite not32_lnot by exact W. apply Z.bits_inj'. intros n N.
  rewrite Z.lor_spec, Z.lxor_spec, !Z.land_spec, not32_bits by assumption.
  destruct (n <? 32), (Z.testbit b n), (Z.testbit c n), (Z.testbit d n); reflexivity.
Qed.
Lemma H_majority : forall b c d, H b c d = Z.lxor (Z.lxor (Z.land b c) (Z.land b d)) (Z.land c d).
Proof.
  intros b c d. unfold H. apply Z.bits_inj'. intros n N. rewrite !Z.lor_spec, !Z.lxor_spec, !Z.land_spec.
  destruct (Z.testbit b n), (Z.testbit c n), (Z.testbit d n); reflexivity.
Qed.

Definition state (r : regs) : sha1_state := (ra r, rb r, rc r, rd r, re r).
Definition words5 (s : sha1_state) : Prop := let '(a, b, c, d, e) := s in word a /\ word b /\ word c /\ word d /\ word e.

Lemma round_sum : forall f e i n a, u32 (a + f + e + i + n) = plus32 a (plus32 f (plus32 e (plus32 n i))).
Proof.
  intros. unfold u32, plus32. repeat (rewrite ?Z.add_assoc; rewrite Z.add_mod_idemp_r by discriminate). f_equal. lia.
Qed.
Lemma step_words : forall w t s, words5 s -> words5 (sha1_step w t s).
Proof.
  intros w t [[[[a b] c] d] e] (A & B & C & D & E). cbn. split; [apply word_plus|]. split; [exact A|]. split; [apply word_rotl; [exact B|lia]|]. tauto.
Qed.

(** One of the loops is twenty steps of the standard. *)
Lemma rounds_steps : forall func k ws t0 r, words5 (state r) ->
  (forall t b c d, (t0 <= t < t0 + length ws)%nat -> word b -> func b c d = sha1_f t b c d /\ k = sha1_k t) ->
  state (rounds func k ws r) = fold_left (fun s t => sha1_step (nth (t - t0) ws 0) t s) (seq t0 (length ws)) (state r) /\ words5 (state (rounds func k ws r)).
Proof.
  intros func k ws. induction ws as [|w ws IH]; intros t0 r W E; cbn [rounds length seq fold_left]; [split; [reflexivity|exact W]|].
  set (r' := mkRegs _ _ _ _ _).
  assert (Q : state r' = sha1_step w t0 (state r)).
  { destruct r as [a b c d e]. destruct W as (A & B & C & D & X). subst r'. cbn [state ra rb rc rd re sha1_step]. unfold sha1_round. destruct (E t0 b c d) as [-> ->]; [cbn [length]; lia|exact B|].
    rewrite round_sum, !RL_rotl by (assumption || lia). reflexivity. }
  assert (W' : words5 (state r')) by (rewrite Q; apply step_words; exact W).
  destruct (IH (S t0) r' W') as [IH1 IH2].
  { intros t b c d L B. apply E; [cbn [length]; lia|exact B]. }
  split; [|exact IH2]. rewrite IH1, Nat.sub_diag. cbn [nth]. rewrite Q.
  assert (G : forall l s, (forall t, In t l -> (S t0 <= t)%nat) ->
    fold_left (fun s t => sha1_step (nth (t - S t0) ws 0) t s) l s = fold_left (fun s t => sha1_step (nth (t - t0) (w :: ws) 0) t s) l s).
  { induction l as [|t l IHl]; intros s L; [reflexivity|]. cbn [fold_left]. rewrite IHl by (intros; apply L; right; assumption).
    specialize (L t (or_introl eq_refl)). replace (t - t0)%nat with (S (t - S t0)) by lia. reflexivity. }
  apply G. intros t I. apply in_seq in I. lia.
Qed.

(** ** The words of the block *)
Lemma words_of_pieces : forall n b, length b = (4 * n)%nat -> words_of n b = map word_be (pieces 4 n b).
Proof.
  induction n as [|n IH]; intros b L; [reflexivity|]. destruct b as [|x0 [|x1 [|x2 [|x3 b]]]]; cbn [length] in L; try lia.
  cbn [words_of pieces map firstn skipn]. rewrite IH by lia. f_equal. unfold word_be. cbn [fold_left]. lia.
Qed.
Lemma word_be_word : forall n b, length b = (4 * n)%nat -> Forall octet b -> Forall word (map word_be (pieces 4 n b)).
Proof.
  induction n as [|n IH]; intros b L O; [constructor|]. destruct b as [|x0 [|x1 [|x2 [|x3 b]]]]; cbn [length] in L; try lia.
  cbn [pieces map firstn skipn]. inversion O as [|? ? O0 O']; subst. inversion O' as [|? ? O1 O'']; subst. inversion O'' as [|? ? O2 O3]; subst. inversion O3 as [|? ? O4 O5]; subst.
  constructor; [|apply IH; [lia|exact O5]]. unfold word_be, word, octet in *. cbn [fold_left]. lia.
Qed.
Lemma schedule_length : forall b n, length b = 64%nat -> length (sha1_schedule b n) = (16 + n)%nat.
Proof.
  intros b n L. induction n as [|n IH]; cbn [sha1_schedule length]; [|rewrite IH; lia].
  rewrite rev_length, map_length, pieces_length. reflexivity.
Qed.
Lemma schedule_words : forall b n, length b = 64%nat -> Forall octet b -> Forall word (sha1_schedule b n).
Proof.
  intros b n L O. induction n as [|n IH]; cbn [sha1_schedule]; [apply Forall_rev, word_be_word; [exact L|exact O]|].
  assert (N : forall k, word (nth k (sha1_schedule b n) 0)).
  { intro k. destruct (Nat.lt_ge_cases k (length (sha1_schedule b n))) as [K|K]; [|rewrite nth_overflow by exact K; unfold word; lia].
    rewrite Forall_forall in IH. apply IH, nth_In, K. }
  constructor; [|exact IH]. apply word_rotl; [|lia]. repeat apply word_lxor; apply N.
Qed.
Lemma extend_schedule : forall b j n, length b = 64%nat -> Forall octet b -> extend j (rev (sha1_schedule b n)) = rev (sha1_schedule b (n + j)).
Proof.
  intros b j. induction j as [|j IH]; intros n L O; cbn [extend]; [rewrite Nat.add_0_r; reflexivity|].
  replace (n + S j)%nat with (S n + j)%nat by lia. rewrite <- (IH (S n)) by assumption. f_equal. cbn [sha1_schedule rev]. f_equal. f_equal.
  assert (Q : forall k, (k < 16)%nat -> nth (length (rev (sha1_schedule b n)) - S k) (rev (sha1_schedule b n)) 0 = nth k (sha1_schedule b n) 0).
  { intros k K. rewrite rev_length, rev_nth by (rewrite schedule_length by exact L; lia). f_equal. rewrite schedule_length by exact L. lia. }
  rewrite (Q 2%nat), (Q 7%nat), (Q 13%nat), (Q 15%nat) by lia. apply RL_rotl; [|lia].
  assert (N : forall k, word (nth k (sha1_schedule b n) 0)).
  { intro k. pose proof (schedule_words b n L O) as W. destruct (Nat.lt_ge_cases k (length (sha1_schedule b n))) as [K|K]; [|rewrite nth_overflow by exact K; unfold word; lia].
    rewrite Forall_forall in W. apply W, nth_In, K. }
  repeat apply word_lxor; apply N.
Qed.

Lemma schedule_start : forall b, sha1_schedule b 0 = rev (map word_be (pieces 4 16 b)).
Proof. reflexivity. Qed.
Lemma data_schedule : forall b, length b = 64%nat -> Forall octet b -> extend 64 (words_of 16 b) = rev (sha1_schedule b 64).
Proof.
  intros b L O. rewrite (words_of_pieces 16 b L), <- (rev_involutive (map word_be (pieces 4 16 b))), <- schedule_start.
  rewrite (extend_schedule b 64 0 L O). reflexivity.
Qed.

(** ** The compression function *)
Lemma fold_part : forall (f : sha1_state -> Z -> nat -> sha1_state) ws t0 w s, (forall i, (i < length ws)%nat -> nth i ws 0 = nth (t0 + i) w 0) ->
  fold_left (fun s t => f s (nth (t - t0) ws 0) t) (seq t0 (length ws)) s = fold_left (fun s t => f s (nth t w 0) t) (seq t0 (length ws)) s.
Proof.
  intros f ws t0 w s E. assert (G : forall l s, (forall t, In t l -> (t0 <= t < t0 + length ws)%nat) ->
    fold_left (fun s t => f s (nth (t - t0) ws 0) t) l s = fold_left (fun s t => f s (nth t w 0) t) l s).
  { induction l as [|t l IH]; intros s' L; [reflexivity|]. cbn [fold_left]. specialize (L t (or_introl eq_refl)) as Lt. rewrite E by lia.
    replace (t0 + (t - t0))%nat with t by lia. apply IH. intros; apply L; right; assumption. }
  apply G. intros t I. apply in_seq in I. lia.
Qed.
Lemma nth_firstn_skipn : forall (w : list Z) a n i, (i < n)%nat -> nth i (firstn n (skipn a w)) 0 = nth (a + i) w 0.
Proof.
  intros w a n i I. revert n i w I. induction a as [|a IH]; intros n i w I.
  - rewrite skipn_O. cbn [Nat.add]. revert i w I. induction n as [|n IHn]; intros i w I; [lia|]. destruct w as [|x w]; [reflexivity|]. destruct i as [|i]; [reflexivity|]. cbn. apply IHn. lia.
  - destruct w as [|x w]; [rewrite skipn_nil, firstn_nil; destruct i; reflexivity|]. cbn [skipn Nat.add nth]. apply IH. exact I.
Qed.
Lemma seq80 : seq 0 80 = seq 0 20 ++ seq 20 20 ++ seq 40 20 ++ seq 60 20.
Proof. reflexivity. Qed.
Lemma all_rounds : forall w r, length w = 80%nat -> words5 (state r) ->
  state (rounds G 3395469782 (firstn 20 (skipn 60 w)) (rounds H 2400959708 (firstn 20 (skipn 40 w)) (rounds G 1859775393 (firstn 20 (skipn 20 w)) (rounds F 1518500249 (firstn 20 w) r)))) =
  fold_left (fun s t => sha1_step (nth t w 0) t s) (seq 0 80) (state r).
Proof.
  intros w r LS W.
  assert (LP : forall a, (a + 20 <= 80)%nat -> length (firstn 20 (skipn a w)) = 20%nat) by (intros a A; rewrite firstn_length, skipn_length; lia).
  assert (P : forall func k t0 r, (t0 + 20 <= 80)%nat -> words5 (state r) ->
     (forall t b c d, (t0 <= t < t0 + 20)%nat -> word b -> func b c d = sha1_f t b c d /\ k = sha1_k t) ->
     state (rounds func k (firstn 20 (skipn t0 w)) r) = fold_left (fun s t => sha1_step (nth t w 0) t s) (seq t0 20) (state r) /\ words5 (state (rounds func k (firstn 20 (skipn t0 w)) r))).
  { intros func k t0 r0 T W0 E. destruct (rounds_steps func k (firstn 20 (skipn t0 w)) t0 r0 W0) as [A B]; [rewrite LP by exact T; exact E|]. split; [|exact B].
    rewrite A. rewrite (fold_part (fun s x t => sha1_step x t s) _ t0 w) by (intros i I; rewrite LP in I by exact T; apply nth_firstn_skipn; exact I). rewrite LP by exact T. reflexivity. }
  rewrite <- (skipn_O w) at 4. remember (fun (s : sha1_state) (t : nat) => sha1_step (nth t w 0) t s) as f eqn:Ef. clear Ef.
  destruct (P F 1518500249 0%nat r) as [A1 B1]; [lia|exact W| |].
  { intros t x y z T X. unfold sha1_f, sha1_k. replace (t <? 20)%nat with true by (symmetry; apply Nat.ltb_lt; lia). split; [apply F_choose; exact X|reflexivity]. }
  remember (rounds F 1518500249 (firstn 20 (skipn 0 w)) r) as s1 eqn:E1. clear E1.
  destruct (P G 1859775393 20%nat s1) as [A2 B2]; [lia|exact B1| |].
  { intros t x y z T X. unfold sha1_f, sha1_k. replace (t <? 20)%nat with false by (symmetry; apply Nat.ltb_ge; lia). replace (t <? 40)%nat with true by (symmetry; apply Nat.ltb_lt; lia). split; reflexivity. }
  remember (rounds G 1859775393 (firstn 20 (skipn 20 w)) s1) as s2 eqn:E2. clear E2.
  destruct (P H 2400959708 40%nat s2) as [A3 B3]; [lia|exact B2| |].
  { intros t x y z T X. unfold sha1_f, sha1_k. replace (t <? 20)%nat with false by (symmetry; apply Nat.ltb_ge; lia). replace (t <? 40)%nat with false by (symmetry; apply Nat.ltb_ge; lia). replace (t <? 60)%nat with true by (symmetry; apply Nat.ltb_lt; lia). split; [apply H_majority|reflexivity]. }
  remember (rounds H 2400959708 (firstn 20 (skipn 40 w)) s2) as s3 eqn:E3. clear E3.
  destruct (P G 3395469782 60%nat s3) as [A4 B4]; [lia|exact B3| |].
  { intros t x y z T X. unfold sha1_f, sha1_k. replace (t <? 20)%nat with false by (symmetry; apply Nat.ltb_ge; lia). replace (t <? 40)%nat with false by (symmetry; apply Nat.ltb_ge; lia). replace (t <? 60)%nat with false by (symmetry; apply Nat.ltb_ge; lia). split; reflexivity. }
  rewrite seq80, !fold_left_app, <- A1, <- A2, <- A3, <- A4. reflexivity.
Qed.
Lemma process_eq : forall r b w s, extend 64 (words_of 16 b) = w ->
  rounds G 3395469782 (firstn 20 (skipn 60 w)) (rounds H 2400959708 (firstn 20 (skipn 40 w)) (rounds G 1859775393 (firstn 20 (skipn 20 w)) (rounds F 1518500249 (firstn 20 w) r))) = s ->
  sha1_process r b = (mkRegs (u32 (ra r + ra s)) (u32 (rb r + rb s)) (u32 (rc r + rc s)) (u32 (rd r + rd s)) (u32 (re r + re s)), repeat 0 64).
Proof. intros r b w s E Q. unfold sha1_process. rewrite E, Q. reflexivity. Qed.
Lemma compress_eq : forall h b w a b' c d e, rev (sha1_schedule b 64) = w -> fold_left (fun s t => sha1_step (nth t w 0) t s) (seq 0 80) h = (a, b', c, d, e) ->
  sha1_compress h b = let '(h0, h1, h2, h3, h4) := h in (plus32 a h0, plus32 b' h1, plus32 c h2, plus32 d h3, plus32 e h4).
Proof. intros h b w a b' c d e E Q. unfold sha1_compress. rewrite E, Q. reflexivity. Qed.
Lemma process_compress : forall r b, length b = 64%nat -> Forall octet b -> words5 (state r) ->
  state (fst (sha1_process r b)) = sha1_compress (state r) b /\ words5 (state (fst (sha1_process r b))) /\ snd (sha1_process r b) = repeat 0 64.
Proof.
  intros r b L O W. pose proof (data_schedule b L O) as E. pose proof (schedule_length b 64 L) as LS. rewrite <- rev_length in LS.
  remember (rev (sha1_schedule b 64)) as w eqn:Ew. symmetry in Ew. pose proof (all_rounds w r LS W) as A.
  remember (rounds G 3395469782 (firstn 20 (skipn 60 w)) (rounds H 2400959708 (firstn 20 (skipn 40 w)) (rounds G 1859775393 (firstn 20 (skipn 20 w)) (rounds F 1518500249 (firstn 20 w) r)))) as s eqn:Es. symmetry in Es.
  rewrite (process_eq r b w s E Es). destruct s as [a b' c d e]. symmetry in A. rewrite (compress_eq (state r) b w a b' c d e Ew A).
  destruct r as [a0 b0 c0 d0 e0]. cbn [state fst snd ra rb rc rd re]. split; [|split; [|reflexivity]].
  - unfold plus32, u32. rewrite (Z.add_comm a0), (Z.add_comm b0), (Z.add_comm c0), (Z.add_comm d0), (Z.add_comm e0). reflexivity.
  - cbn [words5]. repeat split; apply Z.mod_pos_bound; reflexivity.
Qed.

(** ** The stream *)
Notation absorb1 := (absorb sha1_state sha1_compress).
(** The context after the octets [m]. *)
Definition holds (m : list Z) (c : ctx) : Prop :=
  exists full tail n, m = full ++ tail /\ length full = (64 * n)%nat /\ (length tail < 64)%nat /\
    length (pending c) = 64%nat /\ pending_count c = length tail /\ firstn (pending_count c) (pending c) = tail /\
    state (abcde c) = absorb1 sha1_start full /\ words5 (state (abcde c)) /\
    word (counts0 c) /\ word (counts1 c) /\ counts1 c * 2 ^ 32 + counts0 c = Z.of_nat (length m) mod 2 ^ 64.

Lemma copy_in : forall buf o l, (o + length l <= length buf)%nat -> copy_to buf o l = Some (firstn o buf ++ l ++ skipn (o + length l) buf).
Proof. intros buf o l L. unfold copy_to. apply Nat.leb_le in L. rewrite L. reflexivity. Qed.

Lemma loop_absorbs : forall fuel c data tail, (length data < fuel)%nat -> Forall octet tail -> Forall octet data ->
  length (pending c) = 64%nat -> pending_count c = length tail -> (length tail < 64)%nat -> firstn (length tail) (pending c) = tail -> words5 (state (abcde c)) ->
  exists c' rest full tail' n, update_loop fuel c data = Ok (c', rest) /\ tail ++ data = full ++ tail' ++ rest /\ length full = (64 * n)%nat /\ (length tail' + length rest < 64)%nat /\
    length (pending c') = 64%nat /\ pending_count c' = length tail' /\ firstn (length tail') (pending c') = tail' /\
    state (abcde c') = absorb1 (state (abcde c)) full /\ words5 (state (abcde c')) /\ counts0 c' = counts0 c /\ counts1 c' = counts1 c.
Proof.
  induction fuel as [|fuel IH]; intros c data tail FU OT OD LP PC LT FT W; [lia|]. cbn [update_loop]. rewrite PC.
  destruct (Nat.leb_spec 64 (length data + length tail)) as [G|G].
  - assert (LF : length (firstn (64 - length tail) data) = (64 - length tail)%nat) by (rewrite firstn_length; lia).
    rewrite copy_in by lia. rewrite FT, LF. replace (length tail + (64 - length tail))%nat with 64%nat by lia. rewrite (skipn_all2 (pending c)) by lia. rewrite app_nil_r.
    set (block := tail ++ firstn (64 - length tail) data).
    assert (LB : length block = 64%nat) by (subst block; rewrite app_length; lia).
    assert (OB : Forall octet block).
    { subst block. apply Forall_app. split; [exact OT|]. rewrite <- (firstn_skipn (64 - length tail) data) in OD. apply Forall_app in OD. tauto. }
    destruct (process_compress (abcde c) block LB OB W) as (P1 & P2 & P3). destruct (sha1_process (abcde c) block) as [r p]. cbn [fst snd] in P1, P2, P3. subst p.
    destruct (IH (mkCtx (repeat 0 64) (counts0 c) (counts1 c) 0 r) (skipn (64 - length tail) data) []) as (c' & rest & full & tail' & n & E & Q & L1 & L2 & L3 & L4 & L5 & L6 & L7 & L8 & L9).
    + rewrite skipn_length. lia.
    + constructor.
    + rewrite <- (firstn_skipn (64 - length tail) data) in OD. apply Forall_app in OD. tauto.
    + reflexivity.
    + reflexivity.
    + cbn; lia.
    + reflexivity.
    + exact P2.
    + exists c', rest, (block ++ full), tail', (S n). rewrite E. split; [reflexivity|]. split.
      { cbn [app] in Q. rewrite <- app_assoc, <- Q. subst block. rewrite <- app_assoc, firstn_skipn. reflexivity. }
      split; [rewrite app_length; lia|]. split; [exact L2|]. split; [exact L3|]. split; [exact L4|]. split; [exact L5|]. split; [|tauto].
      rewrite L6. cbn [abcde]. rewrite P1. rewrite (absorb_app _ _ _ 1 block) by (rewrite LB; reflexivity). rewrite (absorb_one _ _ _ block) by exact LB. reflexivity.
  - exists c, data, [], tail, 0%nat. split; [reflexivity|]. split; [reflexivity|]. split; [reflexivity|]. split; [lia|]. split; [exact LP|]. split; [exact PC|]. split; [exact FT|]. split; [reflexivity|]. tauto.
Qed.

Lemma count_carry : forall c0 c1 n, word c0 -> word c1 -> 0 < n < 2 ^ 32 ->
  let d0 := u32 (c0 + n) in let d1 := if d0 <=? c0 then u32 (c1 + 1) else c1 in
  d1 * 2 ^ 32 + d0 = (c1 * 2 ^ 32 + c0 + n) mod 2 ^ 64.
Proof.
  intros c0 c1 n W0 W1 N. unfold word in *. cbv zeta. unfold u32. destruct (Z_lt_le_dec (c0 + n) (2 ^ 32)) as [L|L].
  - rewrite (Z.mod_small (c0 + n)) by lia. destruct (Z.leb_spec (c0 + n) c0); [lia|]. rewrite Z.mod_small; lia.
  - replace ((c0 + n) mod 2 ^ 32) with (c0 + n - 2 ^ 32) by (symmetry; rewrite <- (Z.mod_add _ (-1)) by discriminate; rewrite Z.mod_small; lia).
    destruct (Z.leb_spec (c0 + n - 2 ^ 32) c0); [|lia]. destruct (Z.eq_dec c1 (2 ^ 32 - 1)) as [-> |NE].
    + replace (2 ^ 32 - 1 + 1) with (2 ^ 32) by lia. rewrite Z.mod_same by discriminate. rewrite <- (Z.mod_add _ (-1)) by discriminate. rewrite Z.mod_small; lia.
    + rewrite (Z.mod_small (c1 + 1)) by lia. rewrite Z.mod_small; lia.
Qed.

Lemma update_holds : forall m c data, Forall octet m -> Forall octet data -> Z.of_nat (length data) < 2 ^ 32 -> holds m c ->
  exists c', sha1_update c data = Ok c' /\ holds (m ++ data) c'.
Proof.
  intros m c data OM OD LD (full & tail & n & E & LF & LT & LP & PC & FT & S & W & C0 & C1 & CC). subst m. apply Forall_app in OM. destruct OM as [OF OT].
  unfold sha1_update. destruct (loop_absorbs (Datatypes.S (length data)) c data tail) as (c' & rest & full' & tail' & n' & EU & Q & L1 & L2 & L3 & L4 & L5 & L6 & L7 & L8 & L9); [lia|exact OT|exact OD|exact LP|exact PC|exact LT|rewrite <- PC; exact FT|exact W|].
  rewrite EU. cbn [bind]. rewrite copy_in by lia. eexists. split; [reflexivity|].
  exists (full ++ full'), (tail' ++ rest), (n + n')%nat. cbn [pending pending_count abcde counts0 counts1]. rewrite L8, L9, !app_length.
  split; [rewrite <- app_assoc, Q, <- app_assoc; reflexivity|]. split; [lia|]. split; [lia|]. split.
  { rewrite firstn_length, skipn_length. lia. }
  split; [lia|]. split.
  { rewrite L4, L5. rewrite app_assoc. rewrite firstn_app. rewrite app_length. rewrite Nat.sub_diag. cbn [firstn]. rewrite app_nil_r. apply firstn_all2. rewrite app_length. lia. }
  split; [rewrite L6, S; symmetry; apply (absorb_app _ _ _ n); exact LF|]. split; [exact L7|].
  destruct (Z.eqb_spec (Z.of_nat (length data)) 0) as [Z0|Z0].
  - split; [exact C0|]. split; [exact C1|]. rewrite CC. rewrite app_length. f_equal. lia.
  - split; [apply word_mod|]. split; [destruct (_ <=? _); [apply word_mod|exact C1]|].
    rewrite count_carry by (assumption || lia). rewrite CC. rewrite app_length. rewrite Z.add_mod_idemp_l by discriminate. f_equal. lia.
Qed.

Lemma init_holds : holds [] sha1_init.
Proof.
  exists [], [], 0%nat. cbn [sha1_init pending pending_count abcde counts0 counts1]. repeat split; cbn; unfold word; try lia; reflexivity.
Qed.
Lemma updates_hold : forall l m c, Forall octet m -> Forall (Forall octet) l -> Forall (fun d => Z.of_nat (length d) < 2 ^ 32) l -> holds m c ->
  exists c', sha1_updates c l = Ok c' /\ holds (m ++ concat l) c'.
Proof.
  induction l as [|d l IH]; intros m c OM OL LL HH; cbn [sha1_updates concat]; [exists c; rewrite app_nil_r; auto|].
  inversion OL as [|? ? O1 O2]; subst. inversion LL as [|? ? B1 B2]; subst. destruct (update_holds m c d OM O1 B1 HH) as (c1 & E & H1). rewrite E. cbn [bind].
  destruct (IH (m ++ d) c1) as (c' & E' & H'); [apply Forall_app; auto|exact O2|exact B2|exact H1|]. exists c'. rewrite E', app_assoc. auto.
Qed.

(** ** The padding *)
Lemma be4_octets : forall x, word x -> be4 x = octets_be 4 x.
Proof.
  intros x W. unfold be4, octets_be. rewrite !land255, !Z.shiftr_div_pow2 by lia. cbn [octets_le rev app]. rewrite !Z.div_div by lia. reflexivity.
Qed.
Lemma length_octets : forall c0 c1 l, word c0 -> word c1 -> c1 * 2 ^ 32 + c0 = l mod 2 ^ 64 ->
  be4 (let hi := u32 (Z.shiftl c1 3) in if Z.shiftr c0 29 =? 0 then hi else Z.lor hi (Z.shiftr c0 29)) ++ be4 (u32 (Z.shiftl c0 3)) = octets_be 8 (8 * l).
Proof.
  intros c0 c1 l W0 W1 E. cbv zeta.
  replace (if Z.shiftr c0 29 =? 0 then u32 (Z.shiftl c1 3) else Z.lor (u32 (Z.shiftl c1 3)) (Z.shiftr c0 29)) with (u32 (Z.shiftl c1 3) + Z.shiftr c0 29).
  2:{ assert (D : Z.land (u32 (Z.shiftl c1 3)) (Z.shiftr c0 29) = 0).
      { apply Z.bits_inj'. intros k K. rewrite Z.land_spec, Z.bits_0. apply word_bits in W0. destruct W0 as [P0 B0]. unfold u32. destruct (Z_lt_le_dec k 3) as [L|L].
        - rewrite Z.mod_pow2_bits_low by lia. rewrite Z.shiftl_spec_low by exact L. reflexivity.
        - rewrite Z.shiftr_spec by exact K. rewrite (B0 (k + 29)) by lia. apply andb_false_r. }
      destruct (Z.eqb_spec (Z.shiftr c0 29) 0) as [-> |N]; [lia|]. rewrite Z.add_nocarry_lxor by exact D. apply Z.lxor_lor. exact D. }
  unfold u32. rewrite !Z.shiftl_mul_pow2, Z.shiftr_div_pow2 by lia. unfold word in *.
  assert (H1 : 0 <= c0 / 2 ^ 29 < 8) by (split; [apply Z.div_pos; lia|apply Z.div_lt_upper_bound; lia]).
  assert (H2 : (c1 * 2 ^ 3) mod 2 ^ 32 = 8 * (c1 mod 2 ^ 29)) by (rewrite Z.mul_comm; change (2 ^ 32) with (2 ^ 3 * 2 ^ 29); rewrite Z.mul_mod_distr_l by discriminate; reflexivity).
  assert (H3 : (c0 * 2 ^ 3) mod 2 ^ 32 = 8 * (c0 mod 2 ^ 29)) by (rewrite Z.mul_comm; change (2 ^ 32) with (2 ^ 3 * 2 ^ 29); rewrite Z.mul_mod_distr_l by discriminate; reflexivity).
  pose proof (Z.mod_pos_bound c1 (2 ^ 29) eq_refl) as M1. pose proof (Z.mod_pos_bound c0 (2 ^ 29) eq_refl) as M0.
  pose proof (Z.div_mod c0 (2 ^ 29) ltac:(discriminate)) as D0. pose proof (Z.div_mod c1 (2 ^ 29) ltac:(discriminate)) as D1.
  rewrite !be4_octets by (unfold word; lia).
  assert (T : (8 * l) mod 2 ^ 64 = ((c1 * 2 ^ 3) mod 2 ^ 32 + c0 / 2 ^ 29) * 2 ^ 32 + (c0 * 2 ^ 3) mod 2 ^ 32).
  { rewrite H2, H3. rewrite <- Z.mul_mod_idemp_r by discriminate. rewrite <- E.
    replace (8 * (c1 * 2 ^ 32 + c0)) with ((8 * (c1 mod 2 ^ 29) + c0 / 2 ^ 29) * 2 ^ 32 + 8 * (c0 mod 2 ^ 29) + (c1 / 2 ^ 29) * 2 ^ 64) by lia.
    rewrite Z.mod_add by discriminate. apply Z.mod_small. lia. }
  unfold octets_be. rewrite <- rev_app_distr. f_equal. rewrite <- (octets_le_mod 8 (8 * l)). change (256 ^ Z.of_nat 8) with (2 ^ 64). rewrite T. rewrite (octets_le_app 4 4). f_equal.
  - rewrite <- (octets_le_mod 4 (_ * 2 ^ 32 + _)). change (256 ^ Z.of_nat 4) with (2 ^ 32). rewrite Z.add_comm, Z.mod_add, Z.mod_mod by discriminate. reflexivity.
  - change (256 ^ Z.of_nat 4) with (2 ^ 32). rewrite Z.div_add_l by discriminate. rewrite (Z.div_small ((c0 * 2 ^ 3) mod 2 ^ 32)) by (apply Z.mod_pos_bound; reflexivity). rewrite Z.add_0_r. reflexivity.
Qed.

Lemma octet_zeros : forall n, Forall octet (repeat 0 n).
Proof. induction n as [|n IH]; cbn [repeat]; constructor; [unfold octet; lia|exact IH]. Qed.

Lemma output_holds : forall m c, Forall octet m -> holds m c -> sha1_output c = Ok (SHA1 m).
Proof.
  intros m c OM (full & tail & n & E & LF & LT & LP & PC & FT & S & W & C0 & C1 & CC). subst m. apply Forall_app in OM. destruct OM as [OF OT].
  unfold sha1_output. rewrite PC in *. rewrite copy_in by (cbn [length]; rewrite repeat_length; lia). rewrite FT. cbn [length]. rewrite repeat_length.
  rewrite (skipn_all2 (pending c)) by lia. rewrite app_nil_r. unfold SHA1.
  set (len := octets_be 8 (8 * Z.of_nat (length (full ++ tail)))). assert (LL : length len = 8%nat) by apply octets_be_length. assert (OL : Forall octet len) by apply octets_be_octet.
  rewrite (padded_last full tail len n LF LT LL).
  match goal with |- context [fold_left sha1_compress (pieces 64 (length ?p / 64) ?p) sha1_start] => change (fold_left sha1_compress (pieces 64 (length p / 64) p) sha1_start) with (absorb1 sha1_start p) end.
  rewrite (absorb_app _ _ _ n full) by exact LF. rewrite <- S.
  assert (OUT : forall r, words5 (state r) -> be4 (ra r) ++ be4 (rb r) ++ be4 (rc r) ++ be4 (rd r) ++ be4 (re r) =
     let '(a, b, c, d, e) := state r in octets_be 4 a ++ octets_be 4 b ++ octets_be 4 c ++ octets_be 4 d ++ octets_be 4 e).
  { intros r (A & B & C & D & X). cbn [state]. rewrite !be4_octets by assumption. reflexivity. }
  pose proof (length_octets (counts0 c) (counts1 c) _ C0 C1 CC) as LEN. cbv zeta in LEN. fold len in LEN.
  destruct (Nat.leb_spec 56 (length tail)) as [G|G].
  - set (b1 := tail ++ 128 :: repeat 0 (63 - length tail)).
    assert (L1 : length b1 = 64%nat) by (subst b1; rewrite app_length; cbn [length]; rewrite repeat_length; lia).
    assert (O1 : Forall octet b1) by (subst b1; apply Forall_app; split; [exact OT|]; constructor; [unfold octet; lia|apply octet_zeros]).
    destruct (process_compress (abcde c) b1 L1 O1 W) as (P1 & P2 & _). destruct (sha1_process (abcde c) b1) as [r p]. cbn [fst] in P1, P2.
    replace (length tail =? 64)%nat with false by (symmetry; apply Nat.eqb_neq; lia).
    rewrite LEN. change (firstn 56 (0 :: repeat 0 63)) with (repeat 0 56).
    destruct (process_compress r (repeat 0 56 ++ len)) as (P3 & P4 & _); [rewrite app_length, repeat_length; lia|apply Forall_app; split; [apply octet_zeros|exact OL]|exact P2|].
    destruct (sha1_process r (repeat 0 56 ++ len)) as [r2 p2]. cbn [fst] in P3, P4. rewrite (OUT _ P4), P3, P1.
    replace (tail ++ 128 :: repeat 0 (119 - length tail) ++ len) with (b1 ++ repeat 0 56 ++ len).
    2:{ subst b1. rewrite <- app_assoc. cbn [app]. f_equal. f_equal. rewrite app_assoc, <- repeat_app. f_equal. f_equal. lia. }
    rewrite (absorb_app _ _ _ 1 b1) by (rewrite L1; reflexivity). rewrite !absorb_one by (rewrite ?app_length, ?repeat_length; lia). reflexivity.
  - rewrite LEN. assert (FB : firstn 56 (tail ++ 128 :: repeat 0 (63 - length tail)) ++ len = tail ++ 128 :: repeat 0 (55 - length tail) ++ len).
    { replace (63 - length tail)%nat with (55 - length tail + 8)%nat by lia. rewrite repeat_app. rewrite app_comm_cons, app_assoc.
      rewrite firstn_app. replace (length (tail ++ 128 :: repeat 0 (55 - length tail))) with 56%nat by (rewrite app_length; cbn [length]; rewrite repeat_length; lia).
      rewrite Nat.sub_diag, firstn_O, app_nil_r. rewrite firstn_all2 by (rewrite app_length; cbn [length]; rewrite repeat_length; lia). rewrite <- app_assoc. reflexivity. }
    rewrite FB. set (b := tail ++ 128 :: repeat 0 (55 - length tail) ++ len) in *. assert (LB : length b = 64%nat) by (subst b; rewrite !app_length; cbn [length]; rewrite app_length, repeat_length; lia).
    destruct (process_compress (abcde c) b LB) as (P3 & P4 & _); [|exact W|].
    { subst b. apply Forall_app. split; [exact OT|]. constructor; [unfold octet; lia|]. apply Forall_app. split; [apply octet_zeros|exact OL]. }
    destruct (sha1_process (abcde c) b) as [r2 p2]. cbn [fst] in P3, P4. rewrite (OUT _ P4), P3, absorb_one by exact LB. reflexivity.
Qed.

(** ** C54 *)
(** Whatever the message and however it is cut into pieces: the calls stay inside the buffer and the digest is SHA-1 of the message. *)
Theorem digest_is_sha1 : forall l, Forall (Forall octet) l -> Forall (fun d => Z.of_nat (length d) < 2 ^ 32) l ->
  bind (sha1_updates sha1_init l) sha1_output = Ok (SHA1 (concat l)).
Proof.
  intros l OL LL. destruct (updates_hold l [] sha1_init) as (c & E & HH); [constructor|exact OL|exact LL|exact init_holds|].
  rewrite E. cbn [bind]. apply output_holds; [|exact HH]. cbn [app]. clear - OL. induction OL as [|d l O1 O2 IH]; cbn [concat]; [constructor|apply Forall_app; auto].
Qed.
(** sha1_output does not disturb the context: more can be added and a digest taken again. *)
Theorem digest_of_prefixes : forall l l', Forall (Forall octet) (l ++ l') -> Forall (fun d => Z.of_nat (length d) < 2 ^ 32) (l ++ l') ->
  exists c, sha1_updates sha1_init l = Ok c /\ sha1_output c = Ok (SHA1 (concat l)) /\ bind (sha1_updates c l') sha1_output = Ok (SHA1 (concat (l ++ l'))).
Proof.
  intros l l' OL LL. apply Forall_app in OL, LL. destruct OL as [O1 O2], LL as [L1 L2].
  assert (CC : forall x, Forall (Forall octet) x -> Forall octet (concat x)) by (intros x Ox; induction Ox; cbn [concat]; [constructor|apply Forall_app; auto]).
  destruct (updates_hold l [] sha1_init) as (c & E & HH); [constructor|exact O1|exact L1|exact init_holds|]. cbn [app] in HH. exists c. split; [exact E|]. split; [apply output_holds; [apply CC, O1|exact HH]|].
  destruct (updates_hold l' (concat l) c) as (c' & E' & H'); [apply CC, O1|exact O2|exact L2|exact HH|]. rewrite E'. cbn [bind]. rewrite concat_app. apply output_holds; [|exact H']. apply Forall_app. auto.
Qed.
Example pieces_example : Forall (Forall octet) [[97]; []; [98; 99]] /\ Forall (fun d => Z.of_nat (length d) < 2 ^ 32) [[97]; []; [98; 99]] /\
  SHA1 (concat [[97]; []; [98; 99]]) = [169; 153; 62; 54; 71; 6; 129; 106; 186; 62; 37; 113; 120; 80; 194; 108; 156; 208; 216; 157].
Proof. split; [|split]; [repeat constructor; cbn; discriminate|repeat constructor; cbn; reflexivity|vm_compute; reflexivity]. Qed.

(** ** C55 *)
Lemma xor_block_map : forall p x, xor_block p x = map (Z.lxor x) p.
Proof. intros p x. unfold xor_block. apply map_ext. intro y. apply Z.lxor_comm. Qed.
Lemma octet_lxor : forall x y, octet x -> octet y -> octet (Z.lxor x y).
Proof.
  assert (B : forall x, octet x -> forall n, 8 <= n -> Z.testbit x n = false).
  { intros x [P L] n N. destruct (Z.eq_dec x 0) as [-> |NZ]; [apply Z.bits_0|]. apply Z.bits_above_log2; [lia|]. apply Z.lt_le_trans with 8; [|exact N]. apply Z.log2_lt_pow2; lia. }
  intros x y X Y. split; [apply Z.lxor_nonneg; destruct X, Y; tauto|]. destruct (Z.eq_dec (Z.lxor x y) 0) as [-> |NZ]; [reflexivity|].
  assert (P : 0 <= Z.lxor x y) by (apply Z.lxor_nonneg; destruct X, Y; tauto). change 256 with (2 ^ 8). apply Z.log2_lt_pow2; [lia|].
  destruct (Z_lt_le_dec (Z.log2 (Z.lxor x y)) 8) as [L|L]; [exact L|]. assert (Q := Z.bit_log2 (Z.lxor x y) ltac:(lia)). rewrite Z.lxor_spec, (B x X), (B y Y) in Q by exact L. discriminate.
Qed.
Lemma octet_map : forall x p, octet x -> Forall octet p -> Forall octet (map (Z.lxor x) p).
Proof. intros x p X O. induction O; cbn [map]; constructor; auto. apply octet_lxor; assumption. Qed.
Lemma sha1_octets : forall m, Forall octet (SHA1 m) /\ length (SHA1 m) = 20%nat.
Proof.
  intro m. unfold SHA1. destruct (fold_left _ _ _) as [[[[a b] c] d] e]. split; [do 4 (apply Forall_app; split; [apply octets_be_octet|]); apply octets_be_octet|].
  rewrite !app_length, !octets_be_length. reflexivity.
Qed.
Lemma one_update : forall d, Forall octet d -> Z.of_nat (length d) < 2 ^ 32 -> exists c, sha1_update sha1_init d = Ok c /\ holds d c.
Proof. intros d O L. apply (update_holds [] sha1_init d); [constructor|exact O|exact L|exact init_holds]. Qed.

Theorem mac_is_hmac : forall key text, Forall octet key -> Forall octet text -> Z.of_nat (length key) < 2 ^ 32 -> Z.of_nat (length text) < 2 ^ 32 ->
  (20 <= length key)%nat -> hmac_sha1_generate true key text = Ok (Some (HMAC_SHA1 key text)).
Proof.
  intros key text OK OT LK LT MK. unfold hmac_sha1_generate. destruct (Nat.ltb_spec (length key) 20) as [X|_]; [lia|].
  assert (K : (if (64 <? length key)%nat then bind (sha1_update sha1_init key) (fun c => bind (sha1_output c) (fun d => Ok (d ++ repeat 0 44)))
               else Ok (key ++ repeat 0 (64 - length key))) = Ok (hmac_key key) /\ Forall octet (hmac_key key) /\ length (hmac_key key) = 64%nat).
  { unfold hmac_key. destruct (Nat.ltb_spec 64 (length key)) as [G|G].
    - destruct (one_update key OK LK) as (c & E & HH). rewrite E. cbn [bind]. rewrite (output_holds key c OK HH). cbn [bind]. destruct (sha1_octets key) as [O L]. rewrite L.
      split; [reflexivity|]. split; [apply Forall_app; split; [exact O|apply octet_zeros]|rewrite app_length, repeat_length; lia].
    - split; [reflexivity|]. split; [apply Forall_app; split; [exact OK|apply octet_zeros]|rewrite app_length, repeat_length; lia]. }
  destruct K as (EK & OKK & LKK). rewrite EK. cbn [bind]. rewrite !xor_block_map. unfold HMAC_SHA1. set (k := hmac_key key) in *. clearbody k.
  assert (I : Forall octet (map (Z.lxor 54) k)) by (apply octet_map; [unfold octet; lia|exact OKK]). assert (O : Forall octet (map (Z.lxor 92) k)) by (apply octet_map; [unfold octet; lia|exact OKK]).
  destruct (one_update (map (Z.lxor 54) k) I) as (c1 & E1 & H1); [rewrite map_length, LKK; reflexivity|]. rewrite E1. cbn [bind].
  destruct (update_holds _ c1 text I OT LT H1) as (c2 & E2 & H2). rewrite E2. cbn [bind]. rewrite (output_holds _ c2) with (2 := H2) by (apply Forall_app; auto). cbn [bind].
  destruct (sha1_octets (map (Z.lxor 54) k ++ text)) as [OI LI].
  destruct (one_update (map (Z.lxor 92) k) O) as (c3 & E3 & H3); [rewrite map_length, LKK; reflexivity|]. rewrite E3. cbn [bind].
  destruct (update_holds _ c3 _ O OI) with (2 := H3) as (c4 & E4 & H4); [rewrite LI; reflexivity|]. rewrite E4. cbn [bind]. rewrite (output_holds _ c4) with (2 := H4) by (apply Forall_app; auto). reflexivity.
Qed.
(** A key shorter than a digest gives no code at all, nor does a lack of memory. *)
Theorem short_key_no_mac : forall mem key text, (length key < 20)%nat -> hmac_sha1_generate mem key text = Ok None.
Proof. intros mem key text L. unfold hmac_sha1_generate. apply Nat.ltb_lt in L. rewrite L. reflexivity. Qed.
Example mac_example : Forall octet (repeat 11 20) /\ (20 <= length (repeat 11 20))%nat /\
  hmac_sha1_generate true (repeat 11 20) [72; 105; 32; 84; 104; 101; 114; 101] =
  Ok (Some [182; 23; 49; 134; 85; 5; 114; 100; 226; 139; 192; 182; 251; 55; 140; 142; 241; 70; 190; 0]).
Proof. split; [|split]; [cbn; repeat constructor; unfold octet; lia|cbn; lia|vm_compute; reflexivity]. Qed.

(** ** Where the restriction is needed *)
(** The length of a piece is a size_t, the counter it is added to a uint32_t: a piece of 2^33 octets counts as 2^32. *)
Definition counted (c : ctx) (n : Z) : Z * Z :=
  let c0 := u32 (counts0 c + n) in (c0, if c0 <=? counts0 c then u32 (counts1 c + 1) else counts1 c).
Lemma update_counts : forall c d c', d <> [] -> sha1_update c d = Ok c' -> (counts0 c', counts1 c') = counted c (Z.of_nat (length d)).
Proof.
  intros c d c' N E. unfold sha1_update in E.
  assert (L : forall fuel c d c1 r, update_loop fuel c d = Ok (c1, r) -> counts0 c1 = counts0 c /\ counts1 c1 = counts1 c).
  { induction fuel as [|fuel IH]; intros x y x1 r X; [discriminate|]. cbn [update_loop] in X. destruct (64 <=? _)%nat; [|injection X as <- <-; auto].
    destruct (copy_to _ _ _) as [p|]; [|discriminate]. destruct (sha1_process _ _) as [r0 p0]. apply IH in X. exact X. }
  destruct (update_loop _ _ _) as [[c1 r]| |] eqn:U; try discriminate. apply L in U. destruct U as [U0 U1]. cbn [bind] in E. destruct (copy_to _ _ _) as [p|]; [|discriminate]. injection E as <-. cbn [counts0 counts1].
  destruct (Z.eqb_spec (Z.of_nat (length d)) 0) as [Z0|_]; [destruct d; [destruct (N eq_refl)|cbn in Z0; lia]|]. rewrite U0, U1. reflexivity.
Qed.
Theorem long_piece_refuted : exists d c', Forall octet d /\ sha1_update sha1_init d = Ok c' /\
  counts1 c' * 2 ^ 32 + counts0 c' <> Z.of_nat (length d) mod 2 ^ 64.
Proof.
  remember (Z.to_nat (2 ^ 33)) as n eqn:En. assert (ZN : Z.of_nat n = 2 ^ 33) by (rewrite En; apply Z2Nat.id; discriminate). clear En.
  assert (U : exists c', sha1_update sha1_init (repeat 0 n) = Ok c').
  { unfold sha1_update. destruct (loop_absorbs (S (length (repeat 0 n))) sha1_init (repeat 0 n) []) as (c1 & rest & full & tail & k & E & _ & _ & L2 & L3 & L4 & _); try reflexivity;
      [lia|constructor|apply octet_zeros|cbn; lia|cbn; unfold word; lia|].
    rewrite E. cbn [bind]. rewrite copy_in by lia. eexists. reflexivity. }
  destruct U as (c' & U). exists (repeat 0 n), c'. split; [apply octet_zeros|]. split; [exact U|].
  apply update_counts in U; [|intros X; apply (f_equal (@length Z)) in X; rewrite repeat_length in X; cbn in X; subst n; discriminate ZN].
  rewrite repeat_length in *. rewrite ZN in *. injection U as -> ->. discriminate.
Qed.

Print Assumptions digest_is_sha1.
Print Assumptions digest_of_prefixes.
Print Assumptions mac_is_hmac.
Print Assumptions short_key_no_mac.
Print Assumptions long_piece_refuted.
