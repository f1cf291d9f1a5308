(** Theorems on string comparison, complete transfers and the hand-over of passwords (C30, C32, C33). *)
From Coq Require Import String Ascii List Arith ZArith Lia Bool.
From Verif Require Import Base Inline_Model.
Import ListNotations.
Local Open Scope Z_scope.

(** ** Comparison *)
Lemma byte_in : forall s t, byte_at (s ++ t) (length s) = Some (match t with [] => NUL | c :: _ => c end).
Proof.
  intros s t. unfold byte_at. rewrite <- app_assoc, nth_error_app2 by lia. rewrite Nat.sub_diag. destruct t; reflexivity.
Qed.
Lemma char_int_inj : forall a b, char_int a = char_int b -> a = b.
Proof.
  intros a b H. unfold char_int in H. rewrite <- (ascii_nat_embedding a), <- (ascii_nat_embedding b). f_equal.
  pose proof (nat_ascii_bounded a). pose proof (nat_ascii_bounded b). unfold ord in H.
  destruct (Z.of_nat (nat_of_ascii a) <? 128) eqn:E1, (Z.of_nat (nat_of_ascii b) <? 128) eqn:E2; lia.
Qed.
Lemma lower_int_inj : forall a b, lower_int a = lower_int b <-> tolower a = tolower b.
Proof.
  intros a b. unfold lower_int. split; intro H; [|rewrite H; reflexivity].
  rewrite <- (ascii_nat_embedding (tolower a)), <- (ascii_nat_embedding (tolower b)). f_equal. unfold ord in H. lia.
Qed.
Lemma zlor0 : forall a b, Z.lor a b = 0 <-> a = 0 /\ b = 0.
Proof. apply Z.lor_eq_0_iff. Qed.

(** The equality the loop decides: character by character under [val], the shorter string standing at its NUL. *)
Fixpoint same (val : ascii -> Z) (u s : cstr) : Prop :=
  match u, s with
  | [], [] => True
  | [], b :: _ => val NUL = val b
  | a :: u, [] => val a = val NUL /\ same val u []
  | a :: u, b :: s => val a = val b /\ same val u s
  end.

Lemma rev_seq : forall (A : Type) (f : nat -> A) n, rev (map f (seq 0 (S n))) = (rev (map (fun k => f (S k)) (seq 0 n)) ++ [f 0%nat])%list.
Proof. intros A f n. cbn [seq map rev]. rewrite <- seq_shift, map_map. reflexivity. Qed.
Lemma loop_run : forall val u s pu ps ret reads steps fuel, is_cstr u -> is_cstr s -> (length u < fuel)%nat ->
  exists ret' reads', consttime_loop val fuel (pu ++ u) (ps ++ s) (length pu) (length ps) ret reads steps = Ok (ret', reads', (steps + S (length u))%nat)
    /\ (ret' = 0 <-> ret = 0 /\ same val u s)
    /\ reads' = (rev (map (fun k => (length ps + Nat.min k (length s))%nat) (seq 0 (S (length u)))) ++ reads)%list.
Proof.
  intros val. induction u as [|a u IH]; intros s pu ps ret reads steps fuel NU NS LF; (destruct fuel as [|fuel]; [simpl in LF; lia|]); cbn [consttime_loop]; rewrite !byte_in.
  - cbn. eexists _, _. split; [rewrite Nat.add_1_r; reflexivity|]. split; [|rewrite ?Nat.add_0_r; reflexivity]. rewrite zlor0, Z.lxor_eq_0_iff. destruct s; tauto.
  - assert (A : Ascii.eqb a NUL = false) by (destruct (Ascii.eqb_spec a NUL); [subst; exfalso; apply NU; left; reflexivity|reflexivity]). rewrite A. cbn [negb].
    replace (pu ++ a :: u)%list with ((pu ++ [a]) ++ u)%list by (rewrite <- app_assoc; reflexivity).
    replace (S (length pu)) with (length (pu ++ [a])) by (rewrite app_length; cbn; lia).
    assert (NU' : is_cstr u) by (intro; apply NU; right; assumption).
    destruct s as [|b s].
    + cbn [Ascii.eqb]. change (Ascii.eqb NUL NUL) with true. cbv iota.
      destruct (IH [] (pu ++ [a])%list ps (Z.lor ret (Z.lxor (val a) (val NUL))) (length ps :: reads) (S steps) fuel NU' NS) as (r & rd & E & HR & HD); [simpl in LF; lia|].
      exists r, rd. split; [rewrite E; f_equal; f_equal; simpl; lia|]. split; [rewrite HR, zlor0, Z.lxor_eq_0_iff; cbn [same]; tauto|].
      rewrite HD, (rev_seq _ _ (S (length u))). cbn [length]. rewrite <- app_assoc. cbn [app]. rewrite Nat.min_0_l, Nat.add_0_r. do 2 f_equal.
      apply map_ext. intro k. rewrite !Nat.min_0_r. reflexivity.
    + assert (B : Ascii.eqb b NUL = false) by (destruct (Ascii.eqb_spec b NUL); [subst; exfalso; apply NS; left; reflexivity|reflexivity]). rewrite B.
      replace (ps ++ b :: s)%list with ((ps ++ [b]) ++ s)%list by (rewrite <- app_assoc; reflexivity).
      replace (S (length ps)) with (length (ps ++ [b])) by (rewrite app_length; cbn; lia).
      assert (NS' : is_cstr s) by (intro; apply NS; right; assumption).
      destruct (IH s (pu ++ [a])%list (ps ++ [b])%list (Z.lor ret (Z.lxor (val a) (val b))) (length ps :: reads) (S steps) fuel NU' NS') as (r & rd & E & HR & HD); [simpl in LF; lia|].
      exists r, rd. split; [rewrite E; f_equal; f_equal; simpl; lia|]. split; [rewrite HR, zlor0, Z.lxor_eq_0_iff; cbn [same]; tauto|].
      rewrite HD, (rev_seq _ _ (S (length u))). cbn [length]. rewrite <- app_assoc. cbn [app]. rewrite Nat.min_0_l, Nat.add_0_r. do 2 f_equal.
      apply map_ext. intro k. rewrite app_length. cbn [length]. lia.
Qed.

Lemma same_map : forall (A : Type) (f : ascii -> A) val, (forall a b, val a = val b <-> f a = f b) -> (forall a, f a = f NUL -> a = NUL) ->
  forall u s, is_cstr u -> is_cstr s -> (same val u s <-> map f u = map f s).
Proof.
  intros A f val V N. induction u as [|a u IH]; destruct s as [|b s]; intros NU NS; cbn [same map].
  - tauto.
  - rewrite V. split; [|discriminate]. intro H. symmetry in H. apply N in H. subst. exfalso. apply NS. left. reflexivity.
  - rewrite V. split; [|discriminate]. intros [H _]. apply N in H. subst. exfalso. apply NU. left. reflexivity.
  - rewrite V, IH; [|intro; apply NU; right; assumption|intro; apply NS; right; assumption].
    split; [intros [-> ->]; reflexivity|]. intro H. injection H as H1 H2. split; assumption.
Qed.
Lemma tolower_nul : forall a, tolower a = tolower NUL -> a = NUL.
Proof. intros a H. destruct a as [[] [] [] [] [] [] [] []]; vm_compute in H; try discriminate; reflexivity. Qed.

(** C33: the comparison decides equality of the strings, reading neither beyond its end, in as many steps as the
    input has characters plus one. *)
Theorem consttime_is_equality : forall fuel a b, is_cstr a -> is_cstr b -> (length a < fuel)%nat ->
  exists r, consttime_streq fuel a b = Ok (r, S (length a)) /\ (r = true <-> a = b).
Proof.
  intros fuel a b NA NB LF. unfold consttime_streq.
  destruct (loop_run char_int a b [] [] 0 [] 0 fuel NA NB LF) as (ret & rd & E & H & _). cbn [app length] in E. rewrite E. cbn [bind].
  eexists. split; [reflexivity|]. rewrite Z.eqb_eq, H, (same_map _ (fun x => x) char_int); [rewrite !map_id; tauto| |tauto|assumption|assumption].
  intros x y. split; [apply char_int_inj|intros ->; reflexivity].
Qed.

(** C33, the other one: equality up to the case of ASCII letters. *)
Theorem consttime_case_is_equality : forall fuel a b, is_cstr a -> is_cstr b -> (length a < fuel)%nat ->
  exists r, consttime_strcaseeq fuel a b = Ok (r, S (length a)) /\ (r = true <-> map tolower a = map tolower b).
Proof.
  intros fuel a b NA NB LF. unfold consttime_strcaseeq.
  destruct (loop_run lower_int a b [] [] 0 [] 0 fuel NA NB LF) as (ret & rd & E & H & _). cbn [app length] in E. rewrite E. cbn [bind].
  eexists. split; [reflexivity|]. rewrite Z.eqb_eq, H, (same_map _ tolower lower_int); [tauto|apply lower_int_inj|apply tolower_nul|assumption|assumption].
Qed.

(** C33: which bytes of the secret are read depends on the two lengths only. *)
Theorem consttime_reads_by_length : forall val fuel a b, is_cstr a -> is_cstr b -> (length a < fuel)%nat ->
  exists ret, consttime_loop val fuel a b 0 0 0 [] 0 =
    Ok (ret, rev (map (fun k => Nat.min k (length b)) (seq 0 (S (length a)))), S (length a)).
Proof.
  intros val fuel a b NA NB LF. destruct (loop_run val a b [] [] 0 [] 0 fuel NA NB LF) as (ret & rd & E & _ & HD).
  cbn [app length] in E. rewrite E, HD, app_nil_r. eexists. reflexivity.
Qed.

Example consttime_example :
  consttime_streq 10 (lit "secret") (lit "secret") = Ok (true, 7%nat) /\
  consttime_streq 10 (lit "secre") (lit "secret") = Ok (false, 6%nat) /\
  consttime_streq 10 (lit "secret") (lit "") = Ok (false, 7%nat) /\
  consttime_streq 10 (lit "") (lit "") = Ok (true, 1%nat) /\
  consttime_strcaseeq 10 (lit "SecreT") (lit "sECRet") = Ok (true, 7%nat) /\
  consttime_strcaseeq 10 (lit "SecreT{") (lit "sECRet[") = Ok (false, 8%nat).
Proof. vm_compute. repeat split. Qed.

(** ** Complete reads and writes *)
Lemma blit_spec : forall d buf off, (off + length d <= length buf)%nat ->
  blit buf off d = Some (firstn off buf ++ d ++ skipn (off + length d) buf)%list.
Proof.
  induction d as [|c d IH]; intros buf off L; cbn [blit length app].
  - rewrite Nat.add_0_r, firstn_skipn. reflexivity.
  - cbn [length] in L. destruct (upd_some _ buf off c) as [b E]; [lia|]. rewrite E.
    assert (B : b = (firstn off buf ++ c :: skipn (S off) buf)%list).
    { clear - E. revert buf b E. induction off as [|off IH]; intros [|x buf] b E; cbn in E; try discriminate.
      - injection E as <-. reflexivity.
      - destruct (upd buf off c) eqn:E1; [|discriminate]. injection E as <-. rewrite (IH _ _ E1). reflexivity. }
    rewrite IH by (rewrite (upd_length _ _ _ _ _ E); lia). f_equal. subst b.
    assert (LF : length (firstn off buf) = off) by (apply firstn_length_le; lia).
    rewrite firstn_app, LF, firstn_firstn, Nat.min_r by lia. replace (S off - off)%nat with 1%nat by lia. cbn [firstn].
    rewrite skipn_app, LF. rewrite (skipn_all2 (firstn off buf)) by lia. cbn [app]. rewrite <- app_assoc. cbn [app]. do 2 f_equal. f_equal.
    replace (S off + length d - off)%nat with (S (length d)) by lia. rewrite skipn_cons.
    assert (K : forall n m (l : list ascii), skipn n (skipn m l) = skipn (m + n) l).
    { intros n m. revert n. induction m as [|m IHm]; intros n [|y l]; cbn; try reflexivity; [destruct n; reflexivity|apply IHm]. }
    rewrite K. f_equal. lia.
Qed.
Lemma skipn_add : forall (A : Type) n m (l : list A), skipn n (skipn m l) = skipn (m + n) l.
Proof. intros A n m. revert n. induction m as [|m IHm]; intros n [|y l]; cbn; try reflexivity; [destruct n; reflexivity|apply IHm]. Qed.
Lemma firstn_add : forall (A : Type) n m (l : list A), firstn (n + m) l = (firstn n l ++ firstn m (skipn n l))%list.
Proof. induction n as [|n IH]; intros m [|y l]; cbn; try reflexivity; [destruct m; reflexivity|f_equal; apply IH]. Qed.

(** What one read does, whatever the plan. *)
Lemma sys_read_cases : forall n s r s', sys_read n s = (r, s') ->
  match r with
  | RIntr => avail s' = avail s /\ plan s = KIntr :: plan s'
  | RFail => avail s' = avail s /\ In KFail (plan s)
  | RData d => exists k, d = firstn k (avail s) /\ avail s' = skipn k (avail s) /\ (k <= n)%nat /\ (k <= length (avail s))%nat /\
      (d = [] -> n = 0%nat \/ avail s = [] \/ In KZero (plan s)) /\
      ((plan s = [] /\ k = Nat.min n (length (avail s))) \/ exists x, plan s = x :: plan s')
  end /\ (forall x, In x (plan s') -> In x (plan s)).
Proof.
  intros n [av pl] r s' H. unfold sys_read in H. cbn [plan avail] in H. destruct pl as [|[| | |k] p]; injection H as <- <-; cbn [plan avail].
  - split; [|tauto]. exists (Nat.min n (length av)). split; [|split; [|split; [lia|split; [lia|split; [|left; split; reflexivity]]]]].
    + destruct (Nat.le_ge_cases n (length av)); [rewrite Nat.min_l by lia; reflexivity|]. rewrite Nat.min_r by lia. rewrite firstn_all, firstn_all2 by lia. reflexivity.
    + destruct (Nat.le_ge_cases n (length av)); [rewrite Nat.min_l by lia; reflexivity|]. rewrite Nat.min_r by lia. rewrite skipn_all, skipn_all2 by lia. reflexivity.
    + intro E. destruct n; [tauto|]. destruct av; [tauto|discriminate].
  - split; [tauto|]. intros x Hx. right. exact Hx.
  - split; [split; [reflexivity|left; reflexivity]|]. intros x Hx. right. exact Hx.
  - split; [|intros x Hx; right; exact Hx]. exists 0%nat. split; [reflexivity|]. split; [reflexivity|]. split; [lia|]. split; [lia|]. split; [|right; eexists; reflexivity]. intros _. right. right. left. reflexivity.
  - split; [|intros x Hx; right; exact Hx]. change (match n with 0%nat => 0%nat | S m' => S (Nat.min k m') end) with (Nat.min (S k) n). remember (Nat.min (S k) n) as m eqn:EM. assert (M1 : (m <= n)%nat) by (rewrite EM; apply Nat.le_min_r). exists (Nat.min m (length av)). split; [|split; [|split; [lia|split; [lia|split; [|right; eexists; reflexivity]]]]].
    + destruct (Nat.le_ge_cases m (length av)); [rewrite Nat.min_l by lia; reflexivity|]. rewrite Nat.min_r by lia. rewrite firstn_all, firstn_all2 by lia. reflexivity.
    + destruct (Nat.le_ge_cases m (length av)); [rewrite Nat.min_l by lia; reflexivity|]. rewrite Nat.min_r by lia. rewrite skipn_all, skipn_all2 by lia. reflexivity.
    + intro E. destruct n; [tauto|]. destruct av; [tauto|]. rewrite EM, <- Nat.succ_min_distr in E. discriminate.
Qed.

Lemma read_loop_spec : forall fuel buf off count s, (off + count <= length buf)%nat ->
  match read_loop fuel buf off count s with
  | Ok (r, buf', s') => exists k, (k <= count)%nat /\ (k <= length (avail s))%nat /\
      buf' = (firstn off buf ++ firstn k (avail s) ++ skipn (off + k) buf)%list /\ avail s' = skipn k (avail s) /\
      ((r = Z.of_nat (off + k) /\ (k = count \/ k = length (avail s) \/ In KZero (plan s))) \/ (r = -1 /\ In KFail (plan s)))
  | UB => False
  | OutOfFuel => (fuel <= length (plan s) + 1)%nat
  end.
Proof.
  induction fuel as [|fuel IH]; intros buf off count s L; cbn [read_loop]; [lia|].
  destruct (Nat.ltb_spec 0 count) as [C|C].
  2:{ exists 0%nat. cbn [firstn skipn app]. rewrite Nat.add_0_r, firstn_skipn. split; [lia|]. split; [lia|]. split; [reflexivity|]. split; [reflexivity|]. left. split; [reflexivity|left; lia]. }
  destruct (sys_read count s) as [[| |d] s1] eqn:E; pose proof (sys_read_cases _ _ _ _ E) as [H P].
  - destruct H as [HA HP]. specialize (IH buf off count s1 L). destruct (read_loop fuel buf off count s1) as [[[r b] s2]| |]; [|exact IH|rewrite HP; cbn [length]; lia].
    destruct IH as (k & K1 & K2 & K3 & K4 & K5). rewrite HA in *. exists k. split; [exact K1|]. split; [exact K2|]. split; [exact K3|]. split; [exact K4|].
    destruct K5 as [[? [?|[?|?]]]|[? ?]]; auto 6.
  - destruct H as [HA HP]. exists 0%nat. cbn [firstn skipn app]. rewrite Nat.add_0_r, firstn_skipn. split; [lia|]. split; [lia|]. split; [reflexivity|]. split; [exact HA|]. right. split; [reflexivity|exact HP].
  - destruct H as (k & Hd & HA & K1 & K2 & K0 & HP). assert (LD : length d = k) by (subst d; apply firstn_length_le; exact K2).
    rewrite blit_spec by lia. destruct (Nat.eqb_spec (length d) 0) as [Z0|Z0].
    + assert (D : d = []) by (destruct d; [reflexivity|discriminate]). specialize (K0 D). rewrite D. cbn [length app]. rewrite Nat.add_0_r, firstn_skipn. exists 0%nat. cbn [firstn skipn app]. rewrite Nat.add_0_r, firstn_skipn.
      split; [lia|]. split; [lia|]. split; [reflexivity|]. split; [rewrite HA; replace k with 0%nat by lia; reflexivity|]. left. split; [reflexivity|]. destruct K0 as [?|[K0|?]]; [lia|rewrite K0; auto|auto].
    + set (buf1 := (firstn off buf ++ d ++ skipn (off + length d) buf)%list).
      assert (LB : length buf1 = length buf) by (subst buf1; rewrite !app_length, firstn_length_le, skipn_length by lia; lia).
      specialize (IH buf1 (off + length d)%nat (count - length d)%nat s1 ltac:(lia)).
      destruct (read_loop fuel buf1 (off + length d) (count - length d) s1) as [[[r b] s2]| |] eqn:ER; [|exact IH|].
      * destruct IH as (j & J1 & J2 & J3 & J4 & J5). exists (k + j)%nat. rewrite HA, skipn_length in J2. split; [lia|]. split; [lia|]. split; [|split].
        -- rewrite J3, HA, (firstn_add _ k j), <- Hd. subst buf1. rewrite !app_assoc. f_equal; [f_equal|].
           ++ rewrite <- app_assoc. rewrite firstn_app, firstn_length_le, firstn_firstn, Nat.min_r by lia. replace (off + length d - off)%nat with (length d) by lia. rewrite firstn_app, firstn_all, Nat.sub_diag. cbn [firstn]. rewrite app_nil_r. reflexivity.
           ++ rewrite <- app_assoc. rewrite skipn_app, firstn_length_le by lia. rewrite (skipn_all2 (firstn off buf)) by (rewrite firstn_length_le; lia). cbn [app].
              rewrite skipn_app. rewrite (skipn_all2 d) by lia. cbn [app]. rewrite skipn_add. f_equal. lia.
        -- rewrite J4, HA, skipn_add. reflexivity.
        -- destruct J5 as [[J5 J6]|[J5 J6]]; [left|right; split; [exact J5|apply P; exact J6]]. split; [rewrite J5; f_equal; lia|].
           destruct J6 as [J6|[J6|J6]]; [left; lia|right; left; rewrite HA, skipn_length in J6; lia|right; right; apply P; exact J6].
      * destruct HP as [[HP ->]|[x HP]]; [|rewrite HP; cbn [length]; lia].
        (* plan used up: everything possible has been transferred *)
        destruct fuel as [|fuel]; [cbn; lia|]. exfalso. cbn [read_loop] in ER. destruct (Nat.ltb_spec 0 (count - length d)) as [C1|C1]; [|discriminate].
        assert (A1 : avail s1 = []) by (rewrite HA; apply skipn_all2; lia).
        assert (P1 : plan s1 = []) by (destruct (plan s1) as [|x p]; [reflexivity|]; specialize (P x (or_introl eq_refl)); rewrite HP in P; contradiction).
        unfold sys_read in ER. rewrite P1, A1 in ER. rewrite firstn_nil in ER. cbn [blit length] in ER. discriminate.
Qed.

(** C30: pam_modutil_read puts into the buffer the bytes to come, in order, and changes nothing else; it gives
    fewer bytes than asked for only at the end of file, when the kernel says so, or with an error. *)
Theorem read_is_complete : forall fuel buf count s, 0 <= count -> count <= Z.of_nat (length buf) ->
  (length (plan s) + 2 <= fuel)%nat ->
  exists r k s', modutil_read fuel buf count s = Ok (r, (firstn k (avail s) ++ skipn k buf)%list, s') /\
    Z.of_nat k <= count /\ (k <= length (avail s))%nat /\ avail s' = skipn k (avail s) /\
    (In KFail (plan s) /\ r = -1 \/
     r = Z.of_nat k /\ (Z.of_nat k = count \/ k = length (avail s) \/ In KZero (plan s))).
Proof.
  intros fuel buf count s C L F. unfold modutil_read. destruct (Z.ltb_spec count 0) as [CN|CN]; [lia|].
  pose proof (read_loop_spec fuel buf 0 (Z.to_nat count) s ltac:(lia)) as H.
  destruct (read_loop fuel buf 0 (Z.to_nat count) s) as [[[r b] s']| |]; [|contradiction|lia].
  destruct H as (k & K1 & K2 & K3 & K4 & K5). exists r, k, s'. rewrite K3. split; [reflexivity|]. split; [lia|]. split; [exact K2|]. split; [exact K4|].
  destruct K5 as [[K5 K6]|[K5 K6]]; [right|left; auto]. split; [exact K5|]. destruct K6 as [K6|K6]; [left; lia|right; exact K6].
Qed.

(** C30: without errors, exactly the requested number, or all there is. *)
Theorem read_without_errors : forall fuel buf count s, 0 <= count -> count <= Z.of_nat (length buf) ->
  (length (plan s) + 2 <= fuel)%nat -> ~ In KFail (plan s) -> ~ In KZero (plan s) ->
  let k := Nat.min (Z.to_nat count) (length (avail s)) in
  exists s', modutil_read fuel buf count s = Ok (Z.of_nat k, (firstn k (avail s) ++ skipn k buf)%list, s') /\ avail s' = skipn k (avail s).
Proof.
  intros fuel buf count s C L F NF NZ k. destruct (read_is_complete fuel buf count s C L F) as (r & k' & s' & E & K1 & K2 & K3 & [[? _]|[-> K4]]); [contradiction|].
  assert (k' = k) by (subst k; destruct K4 as [K4|[K4|K4]]; [lia|lia|contradiction]). subst k'. exists s'. split; assumption.
Qed.

(** A negative count is refused with nothing done. *)
Theorem negative_count_refused : forall fuel buf count s w, count < 0 ->
  modutil_read fuel buf count s = Ok (-1, buf, s) /\ modutil_write fuel buf count w = Ok (-1, w).
Proof. intros fuel buf count s w C. unfold modutil_read, modutil_write. destruct (Z.ltb_spec count 0); [split; reflexivity|lia]. Qed.

Lemma sys_write_cases : forall d s r s', sys_write d s = (r, s') ->
  match r with
  | RIntr => received s' = received s /\ wplan s = KIntr :: wplan s'
  | RFail => received s' = received s /\ In KFail (wplan s)
  | RData t => exists k, t = firstn k d /\ received s' = (received s ++ t)%list /\ (k <= length d)%nat /\
      (t = [] -> d = [] \/ In KZero (wplan s)) /\ ((wplan s = [] /\ k = length d) \/ exists x, wplan s = x :: wplan s')
  end /\ (forall x, In x (wplan s') -> In x (wplan s)).
Proof.
  intros d [rc pl] r s' H. unfold sys_write in H. cbn [wplan received] in H. destruct pl as [|[| | |k] p]; injection H as <- <-; cbn [wplan received].
  - split; [|tauto]. exists (length d). rewrite firstn_all. repeat split; auto.
  - split; [tauto|]. intros x Hx. right. exact Hx.
  - split; [split; [reflexivity|left; reflexivity]|]. intros x Hx. right. exact Hx.
  - split; [|intros x Hx; right; exact Hx]. exists 0%nat. rewrite app_nil_r. split; [reflexivity|]. split; [reflexivity|]. split; [lia|]. split; [|right; eexists; reflexivity]. intros _. right. left. reflexivity.
  - split; [|intros x Hx; right; exact Hx]. exists (Nat.min (S k) (length d)). assert (FE : firstn (Nat.min (S k) (length d)) d = firstn (S k) d).
    { destruct (Nat.le_ge_cases (S k) (length d)); [rewrite Nat.min_l by lia; reflexivity|]. rewrite Nat.min_r by lia. rewrite firstn_all, firstn_all2 by lia. reflexivity. }
    rewrite FE. split; [reflexivity|]. split; [reflexivity|]. split; [lia|]. split; [|right; eexists; reflexivity]. destruct d; [auto|discriminate].
Qed.
Lemma write_loop_spec : forall fuel buf off count s, (off + count <= length buf)%nat ->
  match write_loop fuel buf off count s with
  | Ok (r, s') => exists k, (k <= count)%nat /\ received s' = (received s ++ firstn k (skipn off buf))%list /\
      ((r = Z.of_nat (off + k) /\ (k = count \/ In KZero (wplan s))) \/ (r = -1 /\ In KFail (wplan s)))
  | UB => False
  | OutOfFuel => (fuel <= length (wplan s) + 1)%nat
  end.
Proof.
  induction fuel as [|fuel IH]; intros buf off count s L; cbn [write_loop]; [lia|].
  destruct (Nat.ltb_spec 0 count) as [C|C].
  2:{ exists 0%nat. cbn [firstn]. rewrite app_nil_r. split; [lia|]. split; [reflexivity|]. left. split; [f_equal; lia|left; lia]. }
  destruct (Nat.ltb_spec (length buf) (off + count)); [lia|].
  set (d := firstn count (skipn off buf)). assert (LD : length d = count) by (subst d; apply firstn_length_le; rewrite skipn_length; lia).
  destruct (sys_write d s) as [[| |t] s1] eqn:E; pose proof (sys_write_cases _ _ _ _ E) as [H0 P].
  - destruct H0 as [HA HP]. specialize (IH buf off count s1 L). destruct (write_loop fuel buf off count s1) as [[r s2]| |]; [|exact IH|rewrite HP; cbn [length]; lia].
    destruct IH as (k & K1 & K2 & K3). exists k. split; [exact K1|]. rewrite <- HA. split; [exact K2|]. destruct K3 as [[? [?|?]]|[? ?]]; auto 6.
  - destruct H0 as [HA HP]. exists 0%nat. cbn [firstn]. rewrite app_nil_r. split; [lia|]. split; [exact HA|]. right. auto.
  - destruct H0 as (k & Ht & HA & K1 & K0 & HP). assert (LT : length t = k) by (subst t; apply firstn_length_le; exact K1).
    destruct (Nat.eqb_spec (length t) 0) as [Z0|Z0].
    + exists 0%nat. assert (T : t = []) by (destruct t; [reflexivity|discriminate]). specialize (K0 T). rewrite HA, T. cbn [firstn]. split; [lia|]. split; [reflexivity|]. left. split; [f_equal; lia|]. destruct K0 as [K0|K0]; [rewrite K0 in LD; cbn in LD; lia|auto].
    + specialize (IH buf (off + length t)%nat (count - length t)%nat s1 ltac:(lia)).
      destruct (write_loop fuel buf (off + length t) (count - length t) s1) as [[r s2]| |] eqn:ER; [|exact IH|].
      * destruct IH as (j & J1 & J2 & J3). exists (k + j)%nat. split; [lia|]. split.
        -- rewrite J2, HA, <- app_assoc. f_equal. rewrite firstn_add, skipn_add, LT. f_equal. rewrite Ht. subst d. rewrite firstn_firstn. f_equal. lia.
        -- destruct J3 as [[J3 J4]|[J3 J4]]; [left|right; auto]. split; [rewrite J3; f_equal; lia|]. destruct J4 as [J4|J4]; [left; lia|right; auto].
      * destruct HP as [[HP ->]|[x HP]]; [|rewrite HP; cbn [length]; lia].
        destruct fuel as [|fuel]; [cbn; lia|]. exfalso. cbn [write_loop] in ER. destruct (Nat.ltb_spec 0 (count - length t)); [lia|discriminate].
Qed.

(** C30, writing: the receiver gets the bytes of the buffer in order, all of them unless there is an error or the
    kernel refuses to take more. *)
Theorem write_is_complete : forall fuel buf count s, 0 <= count -> count <= Z.of_nat (length buf) ->
  (length (wplan s) + 2 <= fuel)%nat ->
  exists r k s', modutil_write fuel buf count s = Ok (r, s') /\ Z.of_nat k <= count /\ received s' = (received s ++ firstn k buf)%list /\
    (In KFail (wplan s) /\ r = -1 \/ r = Z.of_nat k /\ (Z.of_nat k = count \/ In KZero (wplan s))).
Proof.
  intros fuel buf count s C L F. unfold modutil_write. destruct (Z.ltb_spec count 0) as [CN|CN]; [lia|].
  pose proof (write_loop_spec fuel buf 0 (Z.to_nat count) s ltac:(lia)) as H.
  destruct (write_loop fuel buf 0 (Z.to_nat count) s) as [[r s']| |]; [|contradiction|lia].
  destruct H as (k & K1 & K2 & K3). exists r, k, s'. split; [reflexivity|]. split; [lia|]. split; [exact K2|].
  destruct K3 as [[K3 K4]|[K3 K4]]; [right|left; auto]. split; [exact K3|]. destruct K4 as [K4|K4]; [left; lia|right; exact K4].
Qed.

(** ** Passwords for helpers *)
(** A buffer with no trace of a password: every byte is as it was before the call, or zero. *)
Definition clean (o b : list ascii) : Prop := Forall2 (fun x y => y = NUL \/ y = x) o b.
(** What the peer writes for one password. *)
Definition terminated (p : cstr) : list ascii := (p ++ [NUL])%list.
(** The buffer [b], which was [o], holds [c] and otherwise no trace. *)
Definition holds (o b c : list ascii) : Prop := exists t, b = (c ++ t)%list /\ length b = length o /\ clean (skipn (length c) o) t.

Lemma clean_refl : forall o, clean o o.
Proof. induction o; constructor; auto. Qed.
Lemma clean_length : forall o b, clean o b -> length o = length b.
Proof. intros o b H. induction H; cbn; congruence. Qed.
Lemma clean_app : forall o1 b1 o2 b2, clean o1 b1 -> clean o2 b2 -> clean (o1 ++ o2) (b1 ++ b2).
Proof. intros. apply Forall2_app; assumption. Qed.
Lemma clean_zeros : forall o, clean o (repeat NUL (length o)).
Proof. induction o; constructor; auto. Qed.
Lemma clean_skipn : forall n o b, clean o b -> clean (skipn n o) (skipn n b).
Proof. induction n as [|n IH]; intros o b H; [exact H|]. inversion H; subst; [constructor|]. cbn [skipn]. apply IH. assumption. Qed.
Lemma holds_nil : forall o b, holds o b [] <-> clean o b.
Proof.
  intros o b. split.
  - intros (t & -> & L & C). exact C.
  - intro C. exists b. split; [reflexivity|]. split; [symmetry; apply clean_length; exact C|exact C].
Qed.

Lemma memchr0_none : forall d a t, ~ In NUL d -> memchr0 (a ++ d ++ t) (length a) (length d) = Some None.
Proof.
  induction d as [|c d IH]; intros a t N; [reflexivity|]. cbn [length memchr0].
  rewrite nth_error_app2, Nat.sub_diag by lia. cbn [app nth_error].
  destruct (Ascii.eqb_spec c NUL) as [->|_]; [exfalso; apply N; left; reflexivity|].
  replace (a ++ c :: d ++ t)%list with ((a ++ [c]) ++ d ++ t)%list by (rewrite <- app_assoc; reflexivity).
  replace (S (length a)) with (length (a ++ [c])) by (rewrite app_length; cbn; lia).
  rewrite IH; [reflexivity|]. intro; apply N; right; assumption.
Qed.
Lemma memchr0_some : forall x a y t, ~ In NUL x -> memchr0 (a ++ (x ++ NUL :: y) ++ t) (length a) (length (x ++ NUL :: y)) = Some (Some (length x)).
Proof.
  induction x as [|c x IH]; intros a y t N.
  - cbn [app length memchr0]. rewrite nth_error_app2, Nat.sub_diag by lia. reflexivity.
  - cbn [app length memchr0]. rewrite nth_error_app2, Nat.sub_diag by lia. cbn [nth_error].
    destruct (Ascii.eqb_spec c NUL) as [->|_]; [exfalso; apply N; left; reflexivity|].
    replace (a ++ c :: (x ++ NUL :: y) ++ t)%list with ((a ++ [c]) ++ (x ++ NUL :: y) ++ t)%list by (rewrite <- !app_assoc; reflexivity).
    replace (S (length a)) with (length (a ++ [c])) by (rewrite app_length; cbn; lia).
    rewrite IH; [reflexivity|]. intro; apply N; right; assumption.
Qed.
Lemma split_nul : forall d : list ascii, ~ In NUL d \/ exists x y, d = (x ++ NUL :: y)%list /\ ~ In NUL x.
Proof.
  induction d as [|c d IH]; [left; tauto|]. destruct (Ascii.eqb_spec c NUL) as [->|NC].
  - right. exists [], d. split; [reflexivity|tauto].
  - destruct IH as [N|(x & y & -> & N)].
    + left. intros [H|H]; [congruence|contradiction].
    + right. exists (c :: x), y. split; [reflexivity|]. intros [H|H]; [congruence|contradiction].
Qed.

Section Fill.
(** The buffers when the function is called. *)
Variable orig : list (list ascii).
Hypothesis caps : Forall (fun b => length b = CAP) orig.

(** The state of the buffers when [done] has been received and [cur] is in the next buffer. *)
Definition Inv (bufs : list (list ascii)) (done : list cstr) (cur : list ascii) : Prop :=
  length bufs = length orig /\
  forall j o b, nth_error orig j = Some o -> nth_error bufs j = Some b ->
    holds o b (match nth_error done j with Some p => terminated p | None => if (j =? length done)%nat then cur else [] end).

Lemma orig_cap : forall j o, nth_error orig j = Some o -> length o = CAP.
Proof. intros j o H. rewrite Forall_forall in caps. apply caps. eapply nth_error_In. exact H. Qed.
Lemma both : forall (bufs : list (list ascii)) j, length bufs = length orig -> (j < length orig)%nat -> exists o b, nth_error orig j = Some o /\ nth_error bufs j = Some b.
Proof.
  intros bufs j L J. destruct (nth_error orig j) as [o|] eqn:EO; [|apply nth_error_None in EO; lia].
  destruct (nth_error bufs j) as [b|] eqn:EB; [|apply nth_error_None in EB; lia]. eauto.
Qed.
Lemma nth_done : forall (done : list cstr) p j, nth_error (done ++ [p]) j = if (j =? length done)%nat then Some p else nth_error done j.
Proof.
  intros done p j. destruct (Nat.eqb_spec j (length done)) as [->|N].
  - rewrite nth_error_app2, Nat.sub_diag by lia. reflexivity.
  - destruct (Nat.lt_ge_cases j (length done)); [apply nth_error_app1; assumption|].
    transitivity (@None cstr); [apply nth_error_None; rewrite app_length; cbn; lia|symmetry; apply nth_error_None; lia].
Qed.
Lemma nth_none_ge : forall (done : list cstr) j, (length done <= j)%nat -> nth_error done j = None.
Proof. intros. apply nth_error_None. assumption. Qed.

(** Replacing the current buffer. *)
Lemma Inv_cur : forall bufs done cur b b' bufs' cur', Inv bufs done cur -> nth_error bufs (length done) = Some b -> upd bufs (length done) b' = Some bufs' ->
  (forall o, nth_error orig (length done) = Some o -> holds o b cur -> holds o b' cur') -> Inv bufs' done cur'.
Proof.
  intros bufs done cur b b' bufs' cur' [L I] EB U H. split; [rewrite (upd_length _ _ _ _ _ U); exact L|]. intros j o b1 EO E1.
  destruct (Nat.eqb_spec j (length done)) as [->|N].
  - rewrite (upd_same _ _ _ _ _ U) in E1. injection E1 as <-. rewrite nth_none_ge by lia. apply H; [exact EO|].
    specialize (I _ _ _ EO EB). rewrite nth_none_ge, Nat.eqb_refl in I by lia. exact I.
  - rewrite (upd_other _ _ _ _ _ _ U) in E1 by congruence. specialize (I _ _ _ EO E1). destruct (Nat.eqb_spec j (length done)); [contradiction|]. exact I.
Qed.

Definition cur_of (np : nat) (c : list ascii) : list ascii := if (np =? 0)%nat then [] else c.

Lemma split_loop_spec : forall np bufs done partial d, Inv bufs done (cur_of np (partial ++ d)) -> (length done + np <= length orig)%nat -> ~ In NUL partial -> (length d <= CAP)%nat ->
  exists bufs' np' off rb done' tl, split_loop np bufs (length done) (length partial) (length d) = Ok (bufs', length (done ++ done'), np', off, rb) /\
    (np = np' + length done')%nat /\ (partial ++ d = concat (map terminated done') ++ tl)%list /\ Forall is_cstr done' /\ Inv bufs' (done ++ done') (cur_of np' tl) /\
    ((0 < np')%nat -> (off + rb = length tl)%nat /\ ~ In NUL tl).
Proof.
  induction np as [|np IH]; intros bufs done partial d I L NP LD; cbn [split_loop].
  - exists bufs, 0%nat, (length partial), (length d), [], (partial ++ d)%list. rewrite app_nil_r. repeat (split; [first [reflexivity|exact I|constructor|lia]|]). lia.
  - cbn [cur_of Nat.eqb] in I. pose proof I as [LB IB]. destruct (both bufs (length done) LB) as (o & b & EO & EB); [lia|]. rewrite EB.
    pose proof (IB _ _ _ EO EB) as HB. rewrite nth_none_ge, Nat.eqb_refl in HB by lia. destruct HB as (t & Eb & Lb & CT). rewrite (orig_cap _ _ EO) in Lb.
    assert (Eb' : b = (partial ++ d ++ t)%list) by (rewrite app_assoc; exact Eb). 
    destruct (split_nul d) as [ND|(x & y & Ed & NX)].
    + rewrite Eb', (memchr0_none d partial t ND). exists bufs, (S np), (length partial), (length d), [], (partial ++ d)%list. rewrite app_nil_r.
      split; [reflexivity|]. split; [cbn; lia|]. split; [reflexivity|]. split; [constructor|]. split; [exact I|]. intros _. split; [rewrite app_length; lia|]. rewrite in_app_iff. tauto.
    + rewrite Ed in Eb'. assert (MC : memchr0 b (length partial) (length d) = Some (Some (length x))) by (rewrite Eb', Ed; apply memchr0_some; exact NX). rewrite MC, Ed. cbv zeta.
      replace (length (x ++ NUL :: y) - (length x + 1))%nat with (length y) by (rewrite app_length; cbn [length]; lia).
      assert (NPX : is_cstr (partial ++ x)) by (unfold is_cstr; rewrite in_app_iff; tauto).
      assert (Eb2 : b = (terminated (partial ++ x) ++ y ++ t)%list) by (rewrite Eb'; unfold terminated; rewrite <- !app_assoc; reflexivity).
      assert (LT : (length partial + length x + 1)%nat = length (terminated (partial ++ x))) by (unfold terminated; rewrite !app_length; cbn; lia).
      assert (Ly : (length y <= CAP)%nat) by (rewrite Ed, app_length in LD; cbn [length] in LD; lia).
      assert (CT' : clean (skipn (length (terminated (partial ++ x)) + length y) o) t).
      { replace (length (terminated (partial ++ x)) + length y)%nat with (length (partial ++ d)) by (rewrite Ed; unfold terminated; rewrite !app_length; cbn [length]; rewrite ?app_length; lia). exact CT. }
      (* the received password, whatever happens after it *)
      assert (Done : forall (bufs' : list (list ascii)) b' cur', length bufs' = length orig -> nth_error bufs' (length done) = Some b' -> holds o b' (terminated (partial ++ x)) ->
        (forall o b, nth_error orig (S (length done)) = Some o -> nth_error bufs' (S (length done)) = Some b -> holds o b cur') ->
        (forall j, j <> length done -> j <> S (length done) -> nth_error bufs' j = nth_error bufs j) -> Inv bufs' (done ++ [(partial ++ x)%list]) cur').
      { intros bufs' b' cur' LB' EB' HB' HC HO. split; [exact LB'|]. intros j o1 b1 EO1 EB1. rewrite nth_done. rewrite app_length. cbn [length]. rewrite Nat.add_1_r.
        destruct (Nat.eqb_spec j (length done)) as [->|N1]; [congruence|]. destruct (Nat.eqb_spec j (S (length done))) as [->|N2].
        - rewrite nth_none_ge by lia. apply HC; assumption.
        - rewrite HO in EB1 by assumption. specialize (IB _ _ _ EO1 EB1). destruct (Nat.eqb_spec j (length done)); [contradiction|]. exact IB. }
      assert (Next : forall bufs', Inv bufs' (done ++ [(partial ++ x)%list]) (cur_of np y) ->
        exists bufs'' np' off rb done' tl, split_loop np bufs' (S (length done)) 0 (length y) = Ok (bufs'', length (done ++ done'), np', off, rb) /\
          (S np = np' + length done')%nat /\ (partial ++ x ++ NUL :: y = concat (map terminated done') ++ tl)%list /\ Forall is_cstr done' /\ Inv bufs'' (done ++ done') (cur_of np' tl) /\
          ((0 < np')%nat -> (off + rb = length tl)%nat /\ ~ In NUL tl)).
      { intros bufs' I'. destruct (IH bufs' (done ++ [(partial ++ x)%list])%list [] y I') as (b2 & np' & off & rb & dn & tl & E & K1 & K2 & K3 & K4 & K5); [rewrite app_length; cbn; lia|tauto|exact Ly|].
        exists b2, np', off, rb, ((partial ++ x)%list :: dn), tl. rewrite app_length in E. cbn [length] in E. rewrite Nat.add_1_r in E.
        replace (done ++ (partial ++ x)%list :: dn)%list with ((done ++ [(partial ++ x)%list]) ++ dn)%list by (rewrite <- app_assoc; reflexivity).
        split; [exact E|]. split; [cbn; lia|]. split; [|split; [constructor; assumption|split; [exact K4|exact K5]]].
        cbn [map concat]. rewrite <- app_assoc, <- K2. unfold terminated. cbn [app]. rewrite <- !app_assoc. reflexivity. }
      clear IH.
      destruct (Nat.ltb_spec 0 (length y)) as [Y|Y].
      * rewrite LT.
        assert (FS : firstn (length y) (skipn (length (terminated (partial ++ x))) b) = y).
        { rewrite Eb2, skipn_app, skipn_all, Nat.sub_diag. cbn [skipn app]. rewrite firstn_app, firstn_all, Nat.sub_diag. cbn [firstn]. apply app_nil_r. }
        rewrite FS.
        assert (OW : overwrite_n b (length (terminated (partial ++ x))) (length y) = Some (terminated (partial ++ x) ++ repeat NUL (length y) ++ t)%list).
        { unfold overwrite_n. rewrite blit_spec by (rewrite repeat_length, Eb2, !app_length; lia). rewrite repeat_length. f_equal. rewrite Eb2 at 1.
          rewrite firstn_app, firstn_all, Nat.sub_diag. cbn [firstn]. rewrite app_nil_r. f_equal. f_equal. rewrite Eb2, skipn_app, skipn_all2 by lia. cbn [app].
          replace (length (terminated (partial ++ x)) + length y - length (terminated (partial ++ x)))%nat with (length y) by lia. rewrite skipn_app, skipn_all, Nat.sub_diag. reflexivity. }
        rewrite OW.
        assert (HB' : holds o (terminated (partial ++ x) ++ repeat NUL (length y) ++ t) (terminated (partial ++ x))).
        { exists (repeat NUL (length y) ++ t)%list. split; [reflexivity|]. split; [rewrite (orig_cap _ _ EO), <- Lb, Eb2, !app_length, repeat_length; reflexivity|].
          rewrite <- (firstn_skipn (length y) (skipn (length (terminated (partial ++ x))) o)). apply clean_app; [|rewrite skipn_add; exact CT'].
          assert (LY : length (firstn (length y) (skipn (length (terminated (partial ++ x))) o)) = length y).
          { apply firstn_length_le. rewrite skipn_length, (orig_cap _ _ EO), <- Lb, Eb2, !app_length. lia. }
          rewrite <- LY at 2. apply clean_zeros. }
        destruct (Nat.ltb_spec 0 np) as [NP0|NP0].
        -- destruct (both bufs (S (length done)) LB) as (o2 & nb & EO2 & ENB); [lia|]. rewrite ENB.
           pose proof (IB _ _ _ EO2 ENB) as HN. rewrite nth_none_ge in HN by lia. destruct (Nat.eqb_spec (S (length done)) (length done)); [lia|]. apply holds_nil in HN.
           assert (LN : length nb = CAP) by (rewrite <- (clean_length _ _ HN); apply (orig_cap _ _ EO2)).
           rewrite blit_spec by (rewrite LN; cbn; exact Ly). cbn [firstn app Nat.add].
           destruct (upd_some _ bufs (S (length done)) (y ++ skipn (length y) nb)%list) as [bufs1 U1]; [lia|]. rewrite U1.
           destruct (upd_some _ bufs1 (length done) (terminated (partial ++ x) ++ repeat NUL (length y) ++ t)%list) as [bufs2 U2]; [rewrite (upd_length _ _ _ _ _ U1); lia|]. rewrite U2.
           apply Next. unfold cur_of. destruct (Nat.eqb_spec np 0); [lia|].
           eapply Done; [rewrite (upd_length _ _ _ _ _ U2), (upd_length _ _ _ _ _ U1); exact LB|eapply upd_same; exact U2|exact HB'| |].
           ++ intros o3 b3 EO3 EB3. rewrite EO2 in EO3. injection EO3 as <-. rewrite (upd_other _ _ _ _ _ _ U2), (upd_same _ _ _ _ _ U1) in EB3 by lia. injection EB3 as <-.
              exists (skipn (length y) nb). split; [reflexivity|]. split; [rewrite app_length, skipn_length, LN, (orig_cap _ _ EO2); lia|]. apply clean_skipn. exact HN.
           ++ intros j J1 J2. rewrite (upd_other _ _ _ _ _ _ U2), (upd_other _ _ _ _ _ _ U1) by congruence. reflexivity.
        -- destruct (upd_some _ bufs (length done) (terminated (partial ++ x) ++ repeat NUL (length y) ++ t)%list) as [bufs2 U2]; [lia|]. rewrite U2.
           apply Next. unfold cur_of. destruct (Nat.eqb_spec np 0); [|lia].
           eapply Done; [rewrite (upd_length _ _ _ _ _ U2); exact LB|eapply upd_same; exact U2|exact HB'| |].
           ++ intros o3 b3 EO3 EB3. rewrite (upd_other _ _ _ _ _ _ U2) in EB3 by lia. specialize (IB _ _ _ EO3 EB3). rewrite nth_none_ge in IB by lia. destruct (Nat.eqb_spec (S (length done)) (length done)); [lia|]. exact IB.
           ++ intros j J1 J2. rewrite (upd_other _ _ _ _ _ _ U2) by congruence. reflexivity.
      * assert (y = []) by (destruct y; [reflexivity|cbn in Y; lia]). subst y. cbn [length] in *. apply Next. 
        assert (CE : cur_of np [] = []) by (unfold cur_of; destruct (np =? 0)%nat; reflexivity). rewrite CE.
        eapply Done; [exact LB|exact EB| | |reflexivity].
        -- exists t. split; [rewrite Eb2; reflexivity|]. split; [rewrite (orig_cap _ _ EO); exact Lb|]. rewrite Nat.add_0_r in CT'. exact CT'.
        -- intros o3 b3 EO3 EB3. specialize (IB _ _ _ EO3 EB3). rewrite nth_none_ge in IB by lia. destruct (Nat.eqb_spec (S (length done)) (length done)); [lia|]. exact IB.
Qed.

Lemma fill_loop_spec : forall fuel np bufs done partial s, Inv bufs done (cur_of np partial) -> (length done + np <= length orig)%nat -> ~ In NUL partial ->
  match fill_loop fuel np bufs (length done) (length partial) s with
  | Ok (bufs', i, np', off, s') => exists done' cur rest, i = length (done ++ done') /\ (np = np' + length done')%nat /\ Forall is_cstr done' /\
      (partial ++ avail s = concat (map terminated done') ++ cur ++ rest)%list /\ Inv bufs' (done ++ done') (cur_of np' cur) /\
      ((0 < np')%nat -> off = length cur /\ ~ In NUL cur /\ (rest = [] \/ length cur = CAP \/ In KFail (plan s) \/ In KZero (plan s)))
  | UB => False
  | OutOfFuel => (fuel <= length (plan s) + length (avail s))%nat
  end.
Proof.
  induction fuel as [|fuel IH]; intros np bufs done partial s I L NP; cbn [fill_loop]; [lia|].
  destruct (Nat.ltb_spec 0 np) as [P0|P0].
  2:{ exists [], partial, (avail s). rewrite app_nil_r. split; [reflexivity|]. split; [cbn; lia|]. split; [constructor|]. split; [reflexivity|]. split; [exact I|lia]. }
  assert (I1 : Inv bufs done partial) by (unfold cur_of in I; destruct (Nat.eqb_spec np 0); [lia|exact I]).
  destruct (both bufs (length done) (proj1 I1)) as (o & b & EO & EB); [lia|]. pose proof (proj2 I1 _ _ _ EO EB) as HB. rewrite nth_none_ge, Nat.eqb_refl in HB by lia.
  destruct HB as (t & Eb & Lb & CT). rewrite (orig_cap _ _ EO) in Lb.
  assert (LP : (length partial <= CAP)%nat) by (rewrite <- Lb, Eb, app_length; lia).
  destruct (sys_read (CAP - length partial) s) as [[| |d] s1] eqn:E; pose proof (sys_read_cases _ _ _ _ E) as [H P].
  - destruct H as [HA HP]. specialize (IH np bufs done partial s1 I L NP). destruct (fill_loop fuel np bufs (length done) (length partial) s1) as [[[[[b1 i] np'] off] s2]| |]; [|exact IH|rewrite HP, <- HA; cbn [length]; lia].
    destruct IH as (dn & cur & rest & K1 & K2 & K3 & K4 & K5 & K6). rewrite HA in K4. exists dn, cur, rest. repeat (split; [assumption|]).
    intro N. destruct (K6 N) as (K7 & K8 & K9). split; [exact K7|]. split; [exact K8|]. destruct K9 as [K9|[K9|[K9|K9]]]; auto 6.
  - destruct H as [HA HP]. exists [], partial, (avail s). rewrite app_nil_r. split; [reflexivity|]. split; [cbn; lia|]. split; [constructor|]. split; [reflexivity|]. split; [exact I|].
    intros _. split; [reflexivity|]. split; [exact NP|]. auto.
  - destruct H as (k & Hd & HA & K1 & K2 & K0 & HP). assert (LD : length d = k) by (subst d; apply firstn_length_le; exact K2).
    rewrite EB. rewrite blit_spec by (rewrite Lb; lia).
    assert (EB' : (firstn (length partial) b ++ d ++ skipn (length partial + length d) b)%list = ((partial ++ d) ++ skipn (length d) t)%list).
    { rewrite Eb, firstn_app, firstn_all, Nat.sub_diag, skipn_app, skipn_all2 by lia. cbn [firstn app]. rewrite app_nil_r, <- app_assoc. do 3 f_equal. lia. }
    rewrite EB'. destruct (upd_some _ bufs (length done) ((partial ++ d) ++ skipn (length d) t)%list) as [bufs1 U]; [rewrite (proj1 I1); lia|]. rewrite U.
    assert (I2 : Inv bufs1 done (partial ++ d)).
    { eapply Inv_cur; [exact I1|exact EB|exact U|]. intros o1 EO1 _. rewrite EO in EO1. injection EO1 as <-. exists (skipn (length d) t). split; [reflexivity|].
      split; [|rewrite app_length, <- skipn_add; apply clean_skipn; exact CT].
      rewrite (orig_cap _ _ EO), !app_length, skipn_length. rewrite Eb, app_length in Lb. lia. }
    destruct (Nat.eqb_spec (length d) 0) as [Z0|Z0].
    + assert (D : d = []) by (destruct d; [reflexivity|discriminate]). specialize (K0 D). rewrite D, app_nil_r in I2.
      exists [], partial, (avail s). rewrite app_nil_r. split; [reflexivity|]. split; [cbn; lia|]. split; [constructor|]. split; [reflexivity|].
      split; [unfold cur_of; destruct (Nat.eqb_spec np 0); [lia|exact I2]|]. intros _. split; [reflexivity|]. split; [exact NP|]. destruct K0 as [K0|[K0|K0]]; [right; left; lia|left; exact K0|auto].
    + destruct (split_loop_spec np bufs1 done partial d) as (b2 & np1 & off & rb & dn & tl & ES & S1 & S2 & S3 & S4 & S5); [unfold cur_of; destruct (Nat.eqb_spec np 0); [lia|exact I2]|exact L|exact NP|lia|].
      rewrite ES. cbn [bind].
      assert (AV : avail s = (d ++ avail s1)%list) by (rewrite HA, Hd, firstn_skipn; reflexivity).
      destruct (Nat.eq_dec np1 0) as [N1|N1].
      * subst np1. destruct fuel as [|fuel]; cbn [fill_loop]; [rewrite AV, app_length; lia|]. cbn [Nat.ltb Nat.leb]. exists dn, tl, (avail s1). split; [reflexivity|]. split; [exact S1|]. split; [exact S3|].
        split; [rewrite AV, app_assoc, S2, <- app_assoc; reflexivity|]. split; [exact S4|]. lia.
      * destruct S5 as [S5 S6]; [lia|]. rewrite S5. specialize (IH np1 b2 (done ++ dn)%list tl s1 S4). rewrite app_length in IH at 1. specialize (IH ltac:(lia) S6).
        destruct (fill_loop fuel np1 b2 (length (done ++ dn)) (length tl) s1) as [[[[[b3 i] np'] off'] s2]| |]; [|exact IH|].
        -- destruct IH as (dn2 & cur & rest & J1 & J2 & J3 & J4 & J5 & J6). exists (dn ++ dn2)%list, cur, rest. rewrite app_assoc. split; [exact J1|]. split; [rewrite app_length; lia|].
           split; [apply Forall_app; split; assumption|]. split; [rewrite AV, app_assoc, S2, <- app_assoc, J4, map_app, concat_app, <- app_assoc; reflexivity|]. split; [exact J5|].
           intro N. destruct (J6 N) as (K7 & K8 & K9). split; [exact K7|]. split; [exact K8|]. destruct K9 as [K9|[K9|[K9|K9]]]; auto 6.
        -- rewrite AV, app_length. assert (length (plan s1) <= length (plan s))%nat; [|lia]. destruct HP as [[HP _]|[x HP]]; [|rewrite HP; cbn; lia].
           destruct (plan s1) as [|x p]; [cbn; lia|]. specialize (P x (or_introl eq_refl)). rewrite HP in P. contradiction.
Qed.
End Fill.

(** C32: whatever pieces the bytes arrive in, the result counts passwords the peer has sent, complete and first
    to last; each is in its buffer, terminated; no byte of any buffer other than these passwords differs from
    what it was before except by being zero; no access is outside a buffer.  It is as many as asked for unless
    the kernel reported an error or an end, or the next password is not terminated or too long. *)
Theorem passwords_handed_over : forall fuel npass bufs s, (npass <= length bufs)%nat -> Forall (fun b => length b = CAP) bufs ->
  (length (plan s) + length (avail s) < fuel)%nat ->
  exists pws rest bufs' s', read_passwords fuel npass bufs s = Ok (length pws, bufs', s') /\ Forall is_cstr pws /\ (length pws <= npass)%nat /\
    avail s = (concat (map terminated pws) ++ rest)%list /\ length bufs' = length bufs /\
    (forall i b b', nth_error bufs i = Some b -> nth_error bufs' i = Some b' ->
       match nth_error pws i with Some p => exists t, b' = (p ++ NUL :: t)%list /\ length b' = CAP /\ clean (skipn (S (length p)) b) t | None => clean b b' end) /\
    (~ In KFail (plan s) -> ~ In KZero (plan s) -> length pws = npass \/ ~ In NUL (firstn CAP rest)).
Proof.
  intros fuel npass bufs s L C F. unfold read_passwords.
  assert (I : Inv bufs bufs [] (cur_of npass [])).
  { split; [reflexivity|]. intros j o b EO EB. rewrite EO in EB. injection EB as <-.
    assert (X : (match nth_error (@nil cstr) j with Some p => terminated p | None => if (j =? length (@nil cstr))%nat then cur_of npass [] else [] end) = []).
    { rewrite nth_none_ge by (cbn; lia). unfold cur_of. destruct (j =? length (@nil cstr))%nat; [destruct (npass =? 0)%nat|]; reflexivity. }
    rewrite X. apply holds_nil, clean_refl. }
  pose proof (fill_loop_spec bufs C fuel npass bufs [] [] s I L (fun H => H)) as H. cbn [length app] in H.
  destruct (fill_loop fuel npass bufs 0 0 s) as [[[[[b1 i] np'] off] s']| |]; [|contradiction|lia]. cbn [bind].
  destruct H as (pws & cur & rest & -> & K2 & K3 & K4 & K5 & K6).
  assert (Fin : forall bufs', Inv bufs bufs' pws [] -> exists pws0 rest bufs'0 s'0,
    Ok (length pws, bufs', s') = Ok (length pws0, bufs'0, s'0) /\ Forall is_cstr pws0 /\ (length pws0 <= npass)%nat /\
    avail s = (concat (map terminated pws0) ++ rest)%list /\ length bufs'0 = length bufs /\
    (forall i b b', nth_error bufs i = Some b -> nth_error bufs'0 i = Some b' ->
       match nth_error pws0 i with Some p => exists t, b' = (p ++ NUL :: t)%list /\ length b' = CAP /\ clean (skipn (S (length p)) b) t | None => clean b b' end) /\
    (~ In KFail (plan s) -> ~ In KZero (plan s) -> length pws0 = npass \/ ~ In NUL (firstn CAP rest))).
  { intros bufs' [LB IB]. exists pws, (cur ++ rest)%list, bufs', s'. split; [reflexivity|]. split; [exact K3|]. split; [lia|]. split; [exact K4|]. split; [exact LB|]. split.
    - intros j b b' EO EB. specialize (IB _ _ _ EO EB). destruct (nth_error pws j) as [p|].
      + destruct IB as (t & -> & LT & CT). exists t. unfold terminated in *. rewrite <- app_assoc. split; [reflexivity|]. rewrite <- app_assoc in LT. split; [rewrite LT; apply (orig_cap bufs C _ _ EO)|].
        rewrite app_length in CT. cbn [length] in CT. rewrite Nat.add_1_r in CT. exact CT.
      + assert (X : (if (j =? length pws)%nat then @nil ascii else []) = []) by (destruct (j =? length pws)%nat; reflexivity). rewrite X in IB. apply holds_nil. exact IB.
    - intros NF NZ. destruct (Nat.eq_dec np' 0) as [N|N]; [left; lia|]. right. destruct (K6 ltac:(lia)) as (_ & NC & [->|[LC|[?|?]]]); [| |contradiction|contradiction].
      + rewrite app_nil_r. intro X. apply NC. rewrite <- (firstn_skipn CAP cur). apply in_or_app. left. exact X.
      + rewrite firstn_app, <- LC, firstn_all, Nat.sub_diag. cbn [firstn]. rewrite app_nil_r. exact NC. }
  destruct (Nat.ltb_spec 0 off) as [O|O]; cbn [andb].
  - destruct (Nat.ltb_spec 0 np') as [N|N]; cbn [andb].
    + destruct (K6 N) as (-> & NC & _). unfold cur_of in K5. destruct (Nat.eqb_spec np' 0); [lia|].
      destruct (both bufs b1 (length pws) (proj1 K5)) as (o & b & EO & EB); [lia|]. rewrite EB. pose proof (proj2 K5 _ _ _ EO EB) as HB. rewrite nth_none_ge, Nat.eqb_refl in HB by lia.
      destruct HB as (t & Eb & Lb & CT). unfold overwrite_n. rewrite blit_spec by (rewrite repeat_length, Eb, app_length; lia). rewrite repeat_length. cbn [firstn app Nat.add].
      match goal with |- context [upd b1 (length pws) ?v] => destruct (upd_some _ b1 (length pws) v) as [bufs2 U] end; [rewrite (proj1 K5); lia|]. rewrite U. apply Fin.
      eapply Inv_cur; [exact K5|exact EB|exact U|]. intros o1 EO1 _. rewrite EO in EO1. injection EO1 as <-. apply holds_nil.
      rewrite Eb, skipn_app, skipn_all, Nat.sub_diag. cbn [skipn app]. rewrite <- (firstn_skipn (length cur) o) . apply clean_app; [|exact CT].
      assert (LF : length (firstn (length cur) o) = length cur) by (apply firstn_length_le; rewrite <- Lb, Eb, app_length; lia). rewrite <- LF at 2. apply clean_zeros.
    + apply Fin. unfold cur_of in K5. destruct (Nat.eqb_spec np' 0); [exact K5|lia].
  - apply Fin. unfold cur_of in K5. destruct (Nat.eqb_spec np' 0); [exact K5|]. destruct (K6 ltac:(lia)) as (-> & _). assert (cur = []) by (destruct cur; [reflexivity|cbn in O; lia]). subst cur. exact K5.
Qed.

(** Two passwords arriving in three pieces, an interruption between them, and the start of a third: the buffers
    were full of "x". *)
Example passwords_example :
  let s := mkSrc (lit "ab" ++ [NUL] ++ lit "cde" ++ [NUL] ++ lit "zz")%list [KTake 3; KIntr; KTake 1] in
  let x := repeat "x"%char CAP in
  read_passwords 20 2 [x; x; x] s =
    Ok (2%nat, [lit "ab" ++ NUL :: NUL :: skipn 4 x; lit "cde" ++ NUL :: NUL :: NUL :: skipn 6 x; x]%list, mkSrc [] []) /\
  read_passwords 20 3 [x; x; x] (mkSrc (avail s) []) =
    Ok (2%nat, [lit "ab" ++ NUL :: repeat NUL 6 ++ skipn 9 x; lit "cde" ++ NUL :: NUL :: NUL :: skipn 6 x; NUL :: NUL :: skipn 2 x]%list, mkSrc [] []).
Proof. vm_compute. split; reflexivity. Qed.

Example io_example :
  let s := mkSrc (lit "0123456789") [KIntr; KTake 2; KTake 0; KIntr] in
  modutil_read 10 (lit "abcdefgh") 7 s = Ok (7, lit "0123456h", mkSrc (lit "789") []) /\
  modutil_read 10 (lit "abcdefghijklm") 12 s = Ok (10, lit "0123456789klm", mkSrc [] []) /\
  modutil_read 10 (lit "abcdefgh") 7 (mkSrc (avail s) [KTake 1; KFail]) = Ok (-1, lit "01cdefgh", mkSrc (lit "23456789") []) /\
  modutil_write 10 (lit "abcdefgh") 7 (mkSink (lit ">") [KTake 1; KIntr]) = Ok (7, mkSink (lit ">abcdefg") []) /\
  modutil_write 10 (lit "abcdefgh") 7 (mkSink (lit ">") [KTake 1; KZero]) = Ok (2, mkSink (lit ">ab") []).
Proof. vm_compute. repeat split. Qed.

Print Assumptions consttime_is_equality.
Print Assumptions consttime_case_is_equality.
Print Assumptions consttime_reads_by_length.
Print Assumptions read_is_complete.
Print Assumptions read_without_errors.
Print Assumptions negative_count_refused.
Print Assumptions write_is_complete.
Print Assumptions passwords_handed_over.
