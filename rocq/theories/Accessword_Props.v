(** What the words of an access table mean (pam_access). *)
From Coq Require Import String Ascii List Arith ZArith Bool Lia.
From Verif Require Import Base Num_Model Str_Model Str_Facts Access_Model Access_Spec Access_Props.
Import ListNotations.
Local Open Scope Z_scope.

(** ** Bits of addresses *)
Lemma addr_bit_head : forall x l i, (i < 8)%nat -> addr_bit (x :: l) i = Z.testbit x (7 - Z.of_nat i).
Proof. intros x l i H. unfold addr_bit. rewrite Nat.div_small, Nat.mod_small by exact H. reflexivity. Qed.
Lemma addr_bit_tail : forall x l i, addr_bit (x :: l) (8 + i) = addr_bit l i.
Proof.
  intros x l i. unfold addr_bit. replace (8 + i)%nat with (i + 1 * 8)%nat by lia. rewrite Nat.div_add, Nat.mod_add by discriminate.
  replace (i / 8 + 1)%nat with (S (i / 8)) by lia. reflexivity.
Qed.

Lemma byte_bits : forall x y, 0 <= x < 256 -> 0 <= y < 256 -> (forall i, (i < 8)%nat -> Z.testbit x (7 - Z.of_nat i) = Z.testbit y (7 - Z.of_nat i)) -> x = y.
Proof.
  intros x y X Y H. apply Z.bits_inj'. intros n N. destruct (Z_lt_le_dec n 8) as [L|L].
  - specialize (H (Z.to_nat (7 - n))). rewrite Z2Nat.id in H by lia. replace (7 - (7 - n)) with n in H by lia. apply H. lia.
  - assert (B : forall z, 0 <= z < 256 -> Z.testbit z n = false).
    { intros z Z1. destruct (Z.eq_dec z 0) as [-> |NZ]; [apply Z.bits_0|]. apply Z.bits_above_log2; [lia|]. apply Z.lt_le_trans with 8; [|exact L].
      apply Z.log2_lt_pow2; [lia|]. change (2 ^ 8) with 256. lia. }
    rewrite !B by assumption. reflexivity.
Qed.

Lemma bytes_eqb_iff : forall a b, bytes_eqb a b = true <-> a = b.
Proof.
  induction a as [|x a IH]; intros [|y b]; cbn [bytes_eqb]; split; intro H; try discriminate; auto.
  - apply andb_true_iff in H. destruct H as [H1 H2]. apply Z.eqb_eq in H1. apply IH in H2. subst. reflexivity.
  - injection H as -> ->. rewrite Z.eqb_refl. apply IH. reflexivity.
Qed.

Lemma bytes_bits : forall n a b, bytes n a -> bytes n b -> (a = b <-> forall i, (i < 8 * n)%nat -> addr_bit a i = addr_bit b i).
Proof.
  intros n a b (La & Fa) (Lb & Fb). split; [intros ->; reflexivity|]. revert a b La Fa Lb Fb.
  induction n as [|n IH]; intros [|x a] [|y b] La Fa Lb Fb H; try discriminate; [reflexivity|].
  inversion Fa; subst. inversion Fb; subst. f_equal.
  - apply byte_bits; [assumption..|]. intros i Hi. specialize (H i). rewrite !addr_bit_head in H by exact Hi. apply H. lia.
  - apply IH; auto. intros i Hi. specialize (H (8 + i)%nat). rewrite !addr_bit_tail in H. apply H. lia.
Qed.

Lemma mask_bytes_ok : forall n a m, bytes n a -> bytes n m -> bytes n (mask_bytes a m).
Proof.
  intros n a m (La & Fa) (Lm & Fm). revert a m La Fa Lm Fm. induction n as [|n IH]; intros [|x a] [|y m] La Fa Lm Fm; try discriminate; [split; auto|].
  inversion Fa; subst. inversion Fm; subst. injection La as La. injection Lm as Lm. destruct (IH a m La H2 Lm H4) as (L & F). split; cbn [mask_bytes length]; [congruence|].
  constructor; [|exact F]. clear - H1 H3. split; [apply Z.land_nonneg; lia|].
  destruct (Z.eq_dec (Z.land x y) 0) as [-> |NZ]; [lia|]. assert (0 <= Z.land x y) by (apply Z.land_nonneg; lia).
  apply (Z.log2_lt_pow2 (Z.land x y) 8); [lia|]. apply Z.le_lt_trans with (Z.min (Z.log2 x) (Z.log2 y)); [apply Z.log2_land; lia|].
  assert (Z.log2 x < 8). { destruct (Z.eq_dec x 0) as [-> |]; [cbn; lia|]. apply Z.log2_lt_pow2; [lia|]. change (2 ^ 8) with 256. lia. } lia.
Qed.
Lemma mask_bits : forall n a m i, length a = n -> length m = n -> (i < 8 * n)%nat -> addr_bit (mask_bytes a m) i = addr_bit a i && addr_bit m i.
Proof.
  induction n as [|n IH]; intros [|x a] [|y m] i La Lm Hi; try discriminate; [lia|]. cbn [mask_bytes].
  destruct (lt_dec i 8) as [L|L].
  - rewrite !addr_bit_head by exact L. apply Z.land_spec.
  - replace i with (8 + (i - 8))%nat by lia. rewrite !addr_bit_tail. injection La as La. injection Lm as Lm. apply IH; auto. lia.
Qed.

(** The addresses agree where the mask has ones. *)
Definition agree (n : nat) (m a b : list Z) : Prop := forall i, (i < 8 * n)%nat -> addr_bit m i = true -> addr_bit a i = addr_bit b i.
Lemma masked_iff : forall n a b m, bytes n a -> bytes n b -> bytes n m -> (bytes_eqb (mask_bytes a m) (mask_bytes b m) = true <-> agree n m a b).
Proof.
  intros n a b m A B M. rewrite bytes_eqb_iff, (bytes_bits n) by (apply mask_bytes_ok; assumption).
  destruct A as [La _], B as [Lb _], M as [Lm _]. unfold agree. split; intros H i Hi.
  - intro T. specialize (H i Hi). rewrite !(mask_bits n) in H by assumption. rewrite T, !andb_true_r in H. exact H.
  - rewrite !(mask_bits n) by assumption. destruct (addr_bit m i) eqn:T; [rewrite !andb_true_r; auto|rewrite !andb_false_r; reflexivity].
Qed.

Lemma zeros_bits : forall k i, addr_bit (repeat 0 k) i = false.
Proof. intros k i. unfold addr_bit. rewrite nth_repeat. apply Z.bits_0. Qed.
Lemma netmask_bits : forall k n i, 0 <= n -> (i < 8 * k)%nat -> addr_bit (netmask_bytes k n) i = (Z.of_nat i <? n).
Proof.
  induction k as [|k IH]; intros n i N Hi; [lia|]. cbn [netmask_bytes]. destruct (n >=? 8) eqn:E.
  - apply Z.geb_le in E. destruct (lt_dec i 8) as [L|L].
    + rewrite addr_bit_head by exact L. transitivity true; [|symmetry; apply Z.ltb_lt; lia].
      clear IH. do 8 (destruct i as [|i]; [reflexivity|]). lia.
    + replace i with (8 + (i - 8))%nat at 1 by lia. rewrite addr_bit_tail. rewrite IH by lia. apply Bool.eq_iff_eq_true. rewrite !Z.ltb_lt. lia.
  - rewrite Z.geb_leb in E. apply Z.leb_gt in E.
    assert (T : forall x, (8 <= i)%nat -> addr_bit (x :: repeat 0 k) i = (Z.of_nat i <? n)).
    { intros x L. replace i with (8 + (i - 8))%nat at 1 by lia. rewrite addr_bit_tail, zeros_bits. symmetry. apply Z.ltb_ge. lia. }
    destruct (n >? 0) eqn:E0.
    + destruct (lt_dec i 8) as [L|L]; [|apply T; lia]. rewrite addr_bit_head by exact L. rewrite Z.gtb_ltb in E0. apply Z.ltb_lt in E0.
      assert (C : n = 1 \/ n = 2 \/ n = 3 \/ n = 4 \/ n = 5 \/ n = 6 \/ n = 7) by lia.
      do 8 (destruct i as [|i]; [destruct C as [-> |[-> |[-> |[-> |[-> |[-> | ->]]]]]]; reflexivity|]). lia.
    + destruct (lt_dec i 8) as [L|L]; [|apply T; lia]. rewrite addr_bit_head by exact L. rewrite Z.gtb_ltb in E0. apply Z.ltb_ge in E0.
      rewrite Z.bits_0. symmetry. apply Z.ltb_ge. lia.
Qed.
Lemma netmask_ok : forall k n, 0 <= n -> bytes k (netmask_bytes k n).
Proof.
  assert (R : forall k, Forall (fun x => 0 <= x < 256) (repeat 0 k)) by (induction k; cbn [repeat]; constructor; auto; lia).
  induction k as [|k IH]; intros n N; [split; constructor|]. cbn [netmask_bytes]. destruct (n >=? 8) eqn:E.
  - rewrite Z.geb_leb in E. apply Z.leb_le in E. destruct (IH (n - 8)) as [L F]; [lia|]. split; cbn [length]; [congruence|]. constructor; [lia|exact F].
  - destruct (n >? 0); split; cbn [length]; rewrite ?repeat_length; auto; constructor; auto; [apply Z.mod_pos_bound|]; lia.
Qed.

(** ** Numbers as text *)
Lemma hex_digit : forall c, isdigit c = true -> hex_val c = digit_val c /\ 0 <= digit_val c < 10.
Proof.
  intros c H. unfold hex_val. rewrite H. split; [reflexivity|]. unfold isdigit, digit_val in *. apply andb_true_iff in H. destruct H as [A B].
  apply Nat.leb_le in A, B. lia.
Qed.
Lemma digits_in_10 : forall s acc k, forallb isdigit s = true ->
  digits_in 10 s acc k = (fold_left (fun v c => v * 10 + digit_val c) s acc, (k + length s)%nat, []).
Proof.
  induction s as [|c s IH]; intros acc k H; cbn [digits_in fold_left length]; [rewrite Nat.add_0_r; reflexivity|].
  cbn [forallb] in H. apply andb_true_iff in H. destruct H as [D A]. destruct (hex_digit c D) as [-> R].
  destruct (Z.ltb_spec (digit_val c) 10); [|lia]. rewrite IH by exact A. f_equal. f_equal. lia.
Qed.
(** A number without a leading zero is read as decimal. *)
Lemma strtol0_number : forall d, forallb isdigit d = true -> d <> [] -> hd NUL d <> "0"%char -> 0 <= value d <= LONG_MAX ->
  strtol0 d = (value d, Some []).
Proof.
  intros d D N Z0 R. destruct d as [|c d]; [congruence|]. unfold strtol0. pose proof D as D'. cbn [forallb] in D. apply andb_true_iff in D. destruct D as [Dc Dd].
  destruct (isdigit_not c Dc) as [Sp _]. cbn [skip_spaces]. rewrite Sp.
  assert (SG : sign (c :: d) = (false, c :: d)).
  { unfold sign. destruct (Ascii.eqb c "-"%char) eqn:E1; [apply Ascii.eqb_eq in E1; subst; discriminate|].
    destruct (Ascii.eqb c "+"%char) eqn:E2; [apply Ascii.eqb_eq in E2; subst; discriminate|]. reflexivity. }
  rewrite SG. cbn [hd] in Z0. destruct (Ascii.eqb c "0"%char) eqn:E0; [apply Ascii.eqb_eq in E0; contradiction|]. cbn [andb].
  assert (V : digits_in 10 (c :: d) 0 0 = (value (c :: d), S (length d), [])) by (rewrite digits_in_10 by exact D'; reflexivity).
  assert (C : clamp LONG_MIN LONG_MAX (value (c :: d)) = value (c :: d)).
  { unfold clamp, LONG_MIN in *. destruct (Z.ltb_spec (value (c :: d)) (-9223372036854775808)); [lia|]. destruct (Z.ltb_spec LONG_MAX (value (c :: d))); [lia|reflexivity]. }
  destruct d as [|x [|y d]]; rewrite V; cbn [Nat.eqb]; rewrite C; reflexivity.
Qed.

(** ** Words *)
Lemma caseeq_same : forall a b, caseeq a b = true <-> same_word a b.
Proof. intros a b. apply caseeq_iff. Qed.
Lemma caseeq_not : forall a b, caseeq a b = false <-> ~ same_word a b.
Proof. intros a b. rewrite <- caseeq_same. destruct (caseeq a b); split; intro H; congruence. Qed.
(** A character that does not change case and is in one word only. *)
Lemma not_same : forall a b c, In c a -> (forall x, tolower x = tolower c -> x = c) -> ~ In c b -> caseeq a b = false.
Proof.
  intros a b c Ia U Nb. apply caseeq_not. intro E. unfold same_word in E. apply (in_map tolower) in Ia. rewrite E in Ia.
  apply in_map_iff in Ia. destruct Ia as (x & Ex & Ix). rewrite (U x Ex) in Ix. contradiction.
Qed.
Lemma lower_of : forall c, (forall x, tolower x = tolower c -> x = c) <-> forallb (fun n => implb (Ascii.eqb (tolower (ascii_of_nat n)) (tolower c)) (Ascii.eqb (ascii_of_nat n) c)) (seq 0 256) = true.
Proof.
  intro c. rewrite forallb_forall. split.
  - intros H n _. destruct (Ascii.eqb (tolower (ascii_of_nat n)) (tolower c)) eqn:E; [|reflexivity]. apply Ascii.eqb_eq in E. rewrite (H _ E), Ascii.eqb_refl. reflexivity.
  - intros H x E. specialize (H (nat_of_ascii x)). rewrite ascii_nat_embedding, E, Ascii.eqb_refl in H. cbn [implb] in H. apply Ascii.eqb_eq. apply H.
    apply in_seq. pose proof (nat_ascii_bounded x). lia.
Qed.
Lemma slash_case : forall x, tolower x = tolower c_slash -> x = c_slash.
Proof. apply lower_of. vm_compute. reflexivity. Qed.
Lemma dot_case : forall x, tolower x = tolower "."%char -> x = "."%char.
Proof. apply lower_of. vm_compute. reflexivity. Qed.
Lemma not_in_lit : forall c s, existsb (Ascii.eqb c) s = false -> ~ In c s.
Proof. intros c s H I. assert (existsb (Ascii.eqb c) s = true) by (apply existsb_exists; exists c; rewrite Ascii.eqb_refl; auto). congruence. Qed.

Section Words.
Variables nodns new_groups : bool.
Variable user : cstr.
Variable uid : Z.
Variable in_group : cstr -> bool.
Variable in_gid : Z -> bool.
Variable innetgr : cstr -> option cstr -> option cstr -> bool.
Variable hostname : option cstr.
Variable pton : fam -> cstr -> option (list Z).
Variable ntop : fam -> list Z -> cstr.
Variable gai : hint -> cstr -> option (list addr).
Variable numeric : addr -> option cstr.
Variable device : cstr -> bool.
Notation uw := (user_word nodns new_groups user uid in_group in_gid innetgr hostname pton ntop gai numeric device).
Notation ow := (origin_word nodns innetgr pton ntop gai numeric device).

(** C53: words for an origin that is no host: @netgroup, ALL, LOCAL, the name itself. *)
Theorem local_origin_word : forall s w,
  ow (mkItem (Some s) false) w = true <->
  (exists g, w = "@"%char :: g /\ innetgr g (Some s) None = true) \/
  (hd NUL w <> "@"%char /\ (same_word w (lit "all") \/ same_word w s \/ same_word w (lit "local"))).
Proof.
  intros s w. unfold origin_word, from_match. cbn [from from_remote]. destruct (Ascii.eqb (hd NUL w) "@"%char) eqn:E.
  - apply Ascii.eqb_eq in E. destruct w as [|c w]; [discriminate|]. cbn [hd] in E. subst c. cbn [List.tl hd]. split.
    + intro H. left. eauto.
    + intros [(g & Eg & H)|(N & _)]; [injection Eg as <-; exact H|congruence].
  - assert (NE : hd NUL w <> "@"%char) by (intro X; rewrite X, Ascii.eqb_refl in E; discriminate).
    assert (R : ((if string_match w (Some s) then true else if caseeq w (lit "LOCAL") then true else false) = true <->
                 same_word w (lit "all") \/ same_word w s \/ same_word w (lit "local"))).
    { unfold string_match. change (same_word w (lit "all")) with (same_word w (lit "ALL")). change (same_word w (lit "local")) with (same_word w (lit "LOCAL")).
      rewrite <- !caseeq_same. destruct (caseeq w (lit "ALL")), (caseeq w s), (caseeq w (lit "LOCAL")); intuition discriminate. }
    assert (R2 : match (if string_match w (Some s) then Ok (true, Unasked) else if caseeq w (lit "LOCAL") then Ok (negb false, Unasked) else Ok (false, Unasked)) with
                 | Ok (b, _) => b | _ => false end = (if string_match w (Some s) then true else if caseeq w (lit "LOCAL") then true else false)).
    { destruct (string_match w (Some s)); [reflexivity|]. destruct (caseeq w (lit "LOCAL")); reflexivity. }
    rewrite R2, R. split; [intro H; right; split; assumption|]. intros [(g & -> & _)|(_ & H)]; [cbn [hd] in NE; congruence|exact H].
Qed.

(** C53: LOCAL does not stand for a remote host (unless it has that name). *)
Theorem local_not_remote : forall s w, same_word w (lit "local") -> ow (mkItem (Some s) true) w = true <-> same_word s (lit "local").
Proof.
  intros s w W. unfold origin_word, from_match. cbn [from from_remote].
  assert (H0 : Ascii.eqb (hd NUL w) "@"%char = false).
  { destruct w as [|c w]; [discriminate|]. cbn [hd]. apply Ascii.eqb_neq. intros ->. discriminate. }
  rewrite H0. unfold string_match.
  assert (A : caseeq w (lit "ALL") = false) by (apply caseeq_not; intro X; unfold same_word in *; rewrite W in X; discriminate).
  rewrite A. assert (L : caseeq w (lit "LOCAL") = true) by (apply caseeq_same; exact W). rewrite L.
  destruct (caseeq w s) eqn:E; cbn [negb].
  - apply caseeq_same in E. unfold same_word in *. split; [congruence|reflexivity].
  - apply caseeq_not in E. split; [discriminate|]. intro X. exfalso. apply E. unfold same_word in *. congruence.
Qed.

(** C53: ALL, a netgroup, and the host's own name stand for a remote host. *)
Theorem remote_plain_word : forall s,
  (forall w, same_word w (lit "all") -> ow (mkItem (Some s) true) w = true) /\
  (forall g, ow (mkItem (Some s) true) ("@"%char :: g) = innetgr g (Some s) None) /\
  (forall w, hd NUL w <> "@"%char -> same_word w s -> ow (mkItem (Some s) true) w = true).
Proof.
  intro s. unfold origin_word, from_match. cbn [from from_remote]. split; [|split].
  - intros w W. assert (H0 : Ascii.eqb (hd NUL w) "@"%char = false).
    { destruct w as [|c w]; [discriminate|]. cbn [hd]. apply Ascii.eqb_neq. intros ->. discriminate. }
    rewrite H0. unfold string_match. assert (A : caseeq w (lit "ALL") = true) by (apply caseeq_same; exact W). rewrite A. reflexivity.
  - intro g. reflexivity.
  - intros w N W. destruct (Ascii.eqb (hd NUL w) "@"%char) eqn:E; [apply Ascii.eqb_eq in E; contradiction|].
    unfold string_match. apply caseeq_same in W. rewrite W. destruct (caseeq w (lit "ALL")); reflexivity.
Qed.

(** *** Domains *)
Lemma suffix_iff : forall (w s : cstr), ((length w <? length s)%nat && caseeq w (skipn (length s - length w) s)) = true <->
  exists h t, s = h ++ t /\ h <> [] /\ same_word w t.
Proof.
  intros w s. rewrite andb_true_iff, Nat.ltb_lt, caseeq_same. split.
  - intros (L & E). exists (firstn (length s - length w) s), (skipn (length s - length w) s). split; [symmetry; apply firstn_skipn|]. split; [|exact E].
    intro H. apply (f_equal (@length ascii)) in H. rewrite firstn_length in H. cbn [length] in H. lia.
  - intros (h & t & -> & N & E). assert (LE : length w = length t) by (apply (f_equal (@length ascii)) in E; rewrite !map_length in E; exact E).
    rewrite app_length, LE. split; [destruct h; [congruence|cbn [length]; lia]|].
    replace (length h + length t - length t)%nat with (length h) by lia. rewrite skipn_app, skipn_all, Nat.sub_diag. exact E.
Qed.

(** C53: a word that starts with a dot stands for the hosts of that domain: their names end in it (case does not
    matter). With nodns it stands for nothing else. *)
Theorem domain_word : forall s d,
  let w := "."%char :: d in
  ((exists h t, s = h ++ t /\ h <> [] /\ same_word w t) -> ow (mkItem (Some s) true) w = true) /\
  (nodns = true -> ~ In c_slash d -> pton V4 w = None -> pton V6 w = None ->
    ow (mkItem (Some s) true) w = true -> same_word w s \/ exists h t, s = h ++ t /\ h <> [] /\ same_word w t).
Proof.
  intros s d w. pose proof (suffix_iff w s) as SI. unfold origin_word, from_match. cbn [from from_remote].
  change (Ascii.eqb (hd NUL w) "@"%char) with false. cbv iota.
  assert (A : caseeq w (lit "ALL") = false) by (apply (not_same _ _ "."%char); [left; reflexivity|exact dot_case|apply not_in_lit; reflexivity]).
  assert (L : caseeq w (lit "LOCAL") = false) by (apply (not_same _ _ "."%char); [left; reflexivity|exact dot_case|apply not_in_lit; reflexivity]).
  unfold string_match. rewrite A, L. unfold remote_match. change (Ascii.eqb (hd NUL w) "."%char) with true. cbv iota.
  split.
  - intro H. apply SI in H. rewrite H. destruct (caseeq w s); reflexivity.
  - intros ND NS P4 P6. destruct (caseeq w s) eqn:E; [intros _; left; apply caseeq_same; exact E|].
    destruct ((length w <? length s)%nat && caseeq w (skipn (length s - length w) s)) eqn:E2; [intros _; right; apply SI; reflexivity|].
    unfold network_match, token_addresses. assert (SN : split_at c_slash w = None).
    { apply split_at_none. intros [X|X]; [discriminate|contradiction]. }
    rewrite SN. unfold isipaddr at 1. rewrite P4, P6, ND. discriminate.
Qed.

(** *** IPv4 subnets in dotted form *)
(** The octets each followed by a dot. *)
Definition dots (b : list Z) : cstr := concat (map (fun x => decimal x ++ lit ".") b).

Lemma digits_sep : forall (a b r t : cstr) c, forallb isdigit a = true -> forallb isdigit b = true -> isdigit c = false ->
  (a ++ c :: r = b ++ c :: t)%list -> a = b /\ r = t.
Proof.
  induction a as [|x a IH]; intros [|y b] r t c A B C E; cbn [app] in E.
  - injection E as ->. auto.
  - injection E as <- _. cbn [forallb] in B. rewrite C in B. discriminate.
  - injection E as -> _. cbn [forallb] in A. rewrite C in A. discriminate.
  - injection E as <- E. cbn [forallb] in A, B. apply andb_true_iff in A, B. destruct A as [_ A], B as [_ B].
    destruct (IH b r t c A B C E) as [-> ->]. auto.
Qed.

Lemma dots_prefix : forall p b, Forall (fun x => 0 <= x < 256) p -> Forall (fun x => 0 <= x < 256) b ->
  (is_prefix (dots p) (dots b) = true <-> firstn (length p) b = p).
Proof.
  intros p b Fp Fb. rewrite is_prefix_spec. split.
  - intros (r & E). revert b Fb r E. induction Fp as [|x p Hx Fp IH]; intros b Fb r E; [reflexivity|].
    unfold dots in E. cbn [map concat] in E. destruct Fb as [|y b Hy Fb].
    + cbn [map concat] in E. exfalso. destruct (decimal_value x) as (_ & _ & N); [lia|]. destruct (decimal x); [congruence|discriminate].
    + cbn [map concat] in E. destruct (decimal_value x) as (Dx & _ & _); [lia|]. destruct (decimal_value y) as (Dy & _ & _); [lia|].
      rewrite <- !app_assoc in E. cbn [lit app list_ascii_of_string] in E.
      destruct (digits_sep (decimal y) (decimal x) _ _ "."%char Dy Dx eq_refl E) as [D E'].
      apply decimal_inj in D; [|lia|lia]. subst y. cbn [length firstn]. f_equal. apply (IH b Fb r). exact E'.
  - intro E. exists (dots (skipn (length p) b)). unfold dots. rewrite <- concat_app, <- map_app. rewrite <- E at 1. rewrite firstn_skipn. reflexivity.
Qed.

Lemma dots_hd : forall x p, 0 <= x -> exists c r, dots (x :: p) = c :: r /\ isdigit c = true.
Proof.
  intros x p H. destruct (decimal_value x H) as (D & _ & N). unfold dots. cbn [map concat]. destruct (decimal x) as [|c r]; [congruence|].
  cbn [forallb] in D. apply andb_true_iff in D. destruct D as [D _]. cbn [app]. eauto.
Qed.
Lemma dots_last : forall x p, last_char (dots (x :: p)) = "."%char.
Proof.
  intros x p. unfold last_char, dots. destruct (@exists_last _ (x :: p)) as (q & z & ->); [discriminate|].
  rewrite map_app, concat_app. cbn [map concat]. rewrite app_nil_r. rewrite app_assoc. apply last_last.
Qed.
Lemma dots_dot : forall x p, In "."%char (dots (x :: p)).
Proof. intros x p. unfold dots. cbn [map concat]. apply in_or_app. left. apply in_or_app. right. left. reflexivity. Qed.

(** C53: a word of octets each followed by a dot stands for the hosts that have an IPv4 address starting with these octets. *)
Theorem subnet_word : forall s x p,
  Forall (fun x => 0 <= x < 256) (x :: p) -> ~ same_word (dots (x :: p)) s ->
  (forall l a, gai HInet s = Some l -> In a l -> a_fam a = V4 -> Forall (fun x => 0 <= x < 256) (a_bytes a) /\ ntop V4 (a_bytes a) ++ lit "." = dots (a_bytes a)) ->
  (ow (mkItem (Some s) true) (dots (x :: p)) = true <->
   exists l a, gai HInet s = Some l /\ In a l /\ a_fam a = V4 /\ firstn (length (x :: p)) (a_bytes a) = x :: p).
Proof.
  intros s x p F NS G. inversion F as [|? ? Hx Fp]; subst. destruct (dots_hd x p) as (c & r & E & D); [lia|].
  pose proof (dots_last x p) as La. pose proof (dots_dot x p) as Id. set (w := dots (x :: p)) in *.
  unfold origin_word, from_match. cbn [from from_remote].
  assert (N1 : Ascii.eqb (hd NUL w) "@"%char = false) by (rewrite E; cbn [hd]; apply Ascii.eqb_neq; intros ->; discriminate).
  assert (N2 : Ascii.eqb (hd NUL w) "."%char = false) by (rewrite E; cbn [hd]; apply Ascii.eqb_neq; intros ->; discriminate).
  assert (A : caseeq w (lit "ALL") = false) by (apply (not_same _ _ "."%char); [exact Id|exact dot_case|apply not_in_lit; reflexivity]).
  assert (L : caseeq w (lit "LOCAL") = false) by (apply (not_same _ _ "."%char); [exact Id|exact dot_case|apply not_in_lit; reflexivity]).
  apply caseeq_not in NS. unfold string_match. rewrite N1, A, NS, L. unfold remote_match. rewrite N2, La. cbn [Ascii.eqb Bool.eqb]. cbn [lookup].
  destruct (gai HInet s) as [l|] eqn:Eg.
  - change (Ascii.eqb "." ".") with true. cbv iota. rewrite existsb_exists. split.
    + intros (a & Ia & H). apply andb_true_iff in H. destruct H as [Hf Hp]. destruct (a_fam a) eqn:Ef; [|discriminate].
      destruct (G l a eq_refl Ia Ef) as (Fa & Ea). rewrite Ea in Hp. apply dots_prefix in Hp; [|assumption..]. eauto 7.
    + intros (l' & a & El & Ia & Ef & H). injection El as <-. exists a. split; [exact Ia|]. destruct (G l a eq_refl Ia Ef) as (Fa & Ea).
      rewrite Ef, Ea. cbn [fam_eqb andb]. apply dots_prefix; assumption.
  - change (Ascii.eqb "." ".") with true. cbv iota. split; [discriminate|]. intros (l & a & H & _). discriminate.
Qed.

(** *** Addresses and networks *)
(** The text is the address [b] of family [f]. *)
Definition is_address (s : cstr) (f : fam) (b : list Z) : Prop :=
  match f with V4 => pton V4 s = Some b /\ bytes 4 b | V6 => pton V4 s = None /\ pton V6 s = Some b /\ bytes 16 b end.
Definition octets (f : fam) : nat := match f with V4 => 4 | V6 => 16 end.
(** The text is that of the local host's own address. *)
Definition loopback (s : cstr) (f : fam) : Prop := s = match f with V4 => lit "127.0.0.1" | V6 => lit "::1" end.
(** The resolver knows an address given as text: it returns that address, perhaps more than once, and prints it as [t]. *)
Definition resolves (s : cstr) (f : fam) (b : list Z) (t : cstr) : Prop :=
  is_address s f b /\ is_address t f b /\ numeric (mkAddr f b) = Some t /\
  exists l, gai HNone s = Some l /\ l <> [] /\ Forall (fun a => a = mkAddr f b) l.

Lemma address_type : forall s f b, is_address s f b -> isipaddr pton s = Some (f, b) /\ bytes (octets f) b.
Proof.
  intros s f b H. unfold isipaddr. destruct f; cbn [is_address octets] in *.
  - destruct H as [-> H]. auto.
  - destruct H as (-> & -> & H). auto.
Qed.

Lemma numeric_same : forall s mask f b t l, numeric (mkAddr f b) = Some t -> l <> [] -> Forall (fun a => a = mkAddr f b) l ->
  numeric_equal pton numeric s l mask = Ok (addresses_equal pton s t mask).
Proof.
  intros s mask f b t l N L F. induction F as [|a l -> F IH]; [congruence|]. cbn [numeric_equal]. rewrite N.
  destruct (addresses_equal pton s t mask) eqn:E; [reflexivity|]. destruct l as [|a l]; [reflexivity|]. apply IH. discriminate.
Qed.
Lemma some_same : forall buf f' mask f b t l, numeric (mkAddr f b) = Some t -> l <> [] -> Forall (fun a => a = mkAddr f b) l ->
  some_equal pton numeric buf f' mask l = Some (fam_eqb f' f && addresses_equal pton buf t mask).
Proof.
  intros buf f' mask f b t l N L F. induction F as [|a l -> F IH]; [congruence|]. cbn [some_equal a_fam]. rewrite N.
  destruct (fam_eqb f' f) eqn:Ef; cbn [negb andb] in *.
  - destruct (addresses_equal pton buf t mask) eqn:E; [reflexivity|]. destruct l as [|a l]; [reflexivity|]. apply IH. discriminate.
  - destruct l as [|a l]; [reflexivity|]. apply IH. discriminate.
Qed.
Lemma any_same : forall mask f b t l rl, numeric (mkAddr f b) = Some t -> l <> [] -> Forall (fun a => a = mkAddr f b) l ->
  (forall a, In a rl -> exists ta, numeric a = Some ta) ->
  (any_equal pton numeric rl l mask = true <-> exists a ta, In a rl /\ a_fam a = f /\ numeric a = Some ta /\ addresses_equal pton ta t mask = true).
Proof.
  intros mask f b t l rl N L F. induction rl as [|a rl IH]; intro R; cbn [any_equal].
  - split; [discriminate|]. intros (a & ta & [] & _).
  - destruct (R a (or_introl eq_refl)) as (ta & Ea). rewrite Ea, (some_same _ _ _ _ _ _ _ N L F).
    assert (FE : forall u v, fam_eqb u v = true <-> u = v) by (intros [] []; cbn; split; congruence).
    destruct (fam_eqb (a_fam a) f && addresses_equal pton ta t mask) eqn:E.
    + apply andb_true_iff in E. destruct E as [E1 E2]. apply FE in E1. split; [intros _; exists a, ta; repeat split; auto; left; reflexivity|reflexivity].
    + rewrite IH by (intros x Hx; apply R; right; exact Hx). split.
      * intros (x & tx & Ix & H). exists x, tx. split; [right; exact Ix|exact H].
      * intros (x & tx & [<-|Ix] & Fx & Nx & H); [|eauto 7]. exfalso. rewrite Ea in Nx. injection Nx as <-. apply FE in Fx. rewrite Fx, H in E. discriminate.
Qed.

(** What is compared when the mask (None: there is none) is known. *)
Definition matching (f : fam) (m : option (list Z)) (a b : list Z) : Prop :=
  match m with Some m => agree (octets f) m a b | None => a = b end.
Lemma addresses_equal_iff : forall s g sb t f b mask m,
  is_address s g sb -> is_address t f b -> match mask with Some x => pton f x | None => None end = m ->
  match m with Some x => bytes (octets f) x | None => True end ->
  (addresses_equal pton s t mask = true <-> (g = f /\ matching f m sb b) \/ (g <> f /\ loopback s g /\ loopback t f)).
Proof.
  intros s g sb t f b mask m S T Em Bm. destruct (address_type _ _ _ S) as [ES BS]. destruct (address_type _ _ _ T) as [ET BT].
  unfold addresses_equal. rewrite ES, ET. destruct (fam_eqb g f) eqn:Ef.
  - assert (g = f) by (destruct g, f; try discriminate; reflexivity). subst g. cbn [negb]. rewrite Em. destruct m as [m|].
    + rewrite (masked_iff (octets f)) by assumption. cbn [matching]. intuition.
    + rewrite bytes_eqb_iff. cbn [matching]. intuition.
  - assert (g <> f) by (destruct g, f; try discriminate; congruence). cbn [negb]. rewrite andb_true_iff.
    assert (LB : forall x h, is_local_addr x h = true <-> loopback x h) by (intros x []; cbn [is_local_addr loopback]; apply streq_eq).
    rewrite !LB. intuition.
Qed.

(** The way from a word to its addresses. *)
Lemma word_to_network : forall w s, w <> [] -> hd NUL w <> "@"%char -> hd NUL w <> "."%char -> last_char w <> "."%char ->
  caseeq w (lit "ALL") = false -> caseeq w (lit "LOCAL") = false -> ~ same_word w s ->
  from_match nodns innetgr pton ntop gai numeric device w (mkItem (Some s) true) Unasked = network_match nodns pton ntop gai numeric device w s Unasked.
Proof.
  intros w s N H1 H2 H3 A L NS. unfold from_match. cbn [from from_remote]. apply Ascii.eqb_neq in H1, H2, H3. rewrite H1. apply caseeq_not in NS.
  unfold string_match. rewrite A, NS, L. unfold remote_match. rewrite H2, H3. reflexivity.
Qed.

Lemma network_verdict : forall w s tl mask f b t m,
  token_addresses nodns pton ntop gai device w = Some (tl, mask) ->
  numeric (mkAddr f b) = Some t -> is_address t f b -> tl <> [] -> Forall (fun a => a = mkAddr f b) tl ->
  match mask with Some x => pton f x | None => None end = m -> match m with Some x => bytes (octets f) x | None => True end ->
  (forall g sb, is_address s g sb ->
    exists r c, network_match nodns pton ntop gai numeric device w s Unasked = Ok (r, c) /\
      (r = true <-> (g = f /\ matching f m sb b) \/ (g <> f /\ loopback s g /\ loopback t f))) /\
  (forall rl, isipaddr pton s = None -> gai HUnspec s = Some rl ->
    (forall a, In a rl -> exists ta, numeric a = Some ta /\ is_address ta (a_fam a) (a_bytes a)) ->
    exists r c, network_match nodns pton ntop gai numeric device w s Unasked = Ok (r, c) /\
      (r = true <-> exists a, In a rl /\ a_fam a = f /\ matching f m (a_bytes a) b)).
Proof.
  intros w s tl mask f b t m TA N T L F Em Bm. unfold network_match. rewrite TA. split.
  - intros g sb S. destruct (address_type _ _ _ S) as [-> _]. rewrite (numeric_same _ _ _ _ _ _ N L F). cbn [bind]. do 2 eexists. split; [reflexivity|].
    apply addresses_equal_iff with (sb := sb); assumption.
  - intros rl P G R. rewrite P. cbn [lookup]. rewrite G. do 2 eexists. split; [reflexivity|].
    rewrite (any_same _ _ _ _ _ _ N L F) by (intros a Ia; destruct (R a Ia) as (ta & E & _); eauto). split.
    + intros (a & ta & Ia & Fa & Na & H). exists a. split; [exact Ia|]. split; [exact Fa|]. destruct (R a Ia) as (ta' & Na' & Ta). rewrite Na in Na'. injection Na' as <-.
      apply (addresses_equal_iff ta (a_fam a) (a_bytes a) t f b mask m Ta T Em Bm) in H. destruct H as [[_ H]|[H _]]; [exact H|contradiction].
    + intros (a & Ia & Fa & H). destruct (R a Ia) as (ta & Na & Ta). exists a, ta. repeat split; auto.
      apply (addresses_equal_iff ta (a_fam a) (a_bytes a) t f b mask m Ta T Em Bm). left. auto.
Qed.

(** The remote host as the words see it: an address, or a name the resolver knows the addresses of. *)
Inductive remote_host (s : cstr) : Prop :=
| by_address : forall g sb, is_address s g sb -> remote_host s
| by_name : forall rl, isipaddr pton s = None -> gai HUnspec s = Some rl ->
    (forall a, In a rl -> exists ta, numeric a = Some ta /\ is_address ta (a_fam a) (a_bytes a)) -> remote_host s.
(** The address [b] is one of the remote host's. *)
Definition has_address (s : cstr) (f : fam) (b : list Z) : Prop :=
  is_address s f b \/ (isipaddr pton s = None /\ exists rl, gai HUnspec s = Some rl /\ In (mkAddr f b) rl).
(** The one case in which families are mixed: the remote host and the word are the two loopback addresses. *)
Definition both_loopback (s t : cstr) (f : fam) : Prop := exists g sb, is_address s g sb /\ g <> f /\ loopback s g /\ loopback t f.

Lemma verdict_meaning : forall w s tl mask f b t m,
  token_addresses nodns pton ntop gai device w = Some (tl, mask) ->
  numeric (mkAddr f b) = Some t -> is_address t f b -> tl <> [] -> Forall (fun a => a = mkAddr f b) tl ->
  match mask with Some x => pton f x | None => None end = m -> match m with Some x => bytes (octets f) x | None => True end ->
  remote_host s ->
  (match network_match nodns pton ntop gai numeric device w s Unasked with Ok (r, _) => r | _ => false end = true <->
   (exists a, has_address s f a /\ matching f m a b) \/ both_loopback s t f).
Proof.
  intros w s tl mask f b t m TA N T L F Em Bm R. destruct (network_verdict w s tl mask f b t m TA N T L F Em Bm) as [VA VN].
  assert (U : forall g sb g' sb', is_address s g sb -> is_address s g' sb' -> g = g' /\ sb = sb').
  { intros g sb g' sb' A B. apply address_type in A, B. destruct A as [A _], B as [B _]. rewrite A in B. injection B as -> ->. auto. }
  destruct R as [g sb S|rl P G R].
  - destruct (VA g sb S) as (r & c & -> & ->). split.
    + intros [(-> & M)|(NE & LS & LT)]; [left; exists sb; split; [left; exact S|exact M]|right; exists g, sb; auto].
    + intros [(a & [HA|(P & _)] & M)|(g' & sb' & S' & NE & LS & LT)].
      * destruct (U _ _ _ _ S HA) as [-> ->]. left. auto.
      * apply address_type in S. destruct S as [S _]. congruence.
      * destruct (U _ _ _ _ S S') as [-> ->]. right. auto.
  - destruct (VN rl P G R) as (r & c & -> & ->). split.
    + intros (a & Ia & Fa & M). left. exists (a_bytes a). split; [right; split; [exact P|]; exists rl; split; [exact G|]|exact M]. destruct a; cbn in *; subst; exact Ia.
    + intros [(a & [HA|(_ & rl' & G' & Ia)] & M)|(g' & sb' & S' & _)].
      * apply address_type in HA. destruct HA as [HA _]. congruence.
      * rewrite G in G'. injection G' as <-. exists (mkAddr f a). auto.
      * apply address_type in S'. destruct S' as [S' _]. congruence.
Qed.

(** C53: a word network/n, the number written without leading zeros and not 0, stands for the hosts that have an
    address of the network's family whose first n bits are those of the network. *)
Theorem prefix_word : forall net f b t d s,
  resolves net f b t -> net <> [] -> hd NUL net <> "@"%char -> hd NUL net <> "."%char -> ~ In c_slash net -> ~ In c_slash s ->
  d <> [] -> forallb isdigit d = true -> hd NUL d <> "0"%char -> 0 < value d <= 8 * Z.of_nat (octets f) -> pton V4 d = None -> pton V6 d = None ->
  (forall x, bytes (octets f) x -> pton f (ntop f x) = Some x) -> remote_host s ->
  (ow (mkItem (Some s) true) (net ++ c_slash :: d) = true <->
   (exists a, has_address s f a /\ forall i, Z.of_nat i < value d -> addr_bit a i = addr_bit b i) \/ both_loopback s t f).
Proof.
  intros net f b t d s (RA & RT & RN & tl & RG & RL & RF) Nn H1 H2 NSl NSs Nd Dd D0 Dv P4 P6 RT2 R.
  assert (W : ~ same_word (net ++ c_slash :: d) s).
  { apply caseeq_not. apply (not_same _ _ c_slash); [apply in_or_app; right; left; reflexivity|exact slash_case|exact NSs]. }
  assert (TA : token_addresses nodns pton ntop gai device (net ++ c_slash :: d) = Some (tl, Some (ntop f (netmask_bytes (octets f) (value d))))).
  { unfold token_addresses. rewrite (proj2 (split_at_some c_slash (net ++ c_slash :: d) net d)) by auto.
    destruct (address_type _ _ _ RA) as [-> _]. unfold isipaddr. rewrite P4, P6.
    rewrite strtol0_number; auto.
    - destruct (Z.ltb_spec (value d) 0); [lia|]. cbn [orb].
      replace (match f with V4 => value d >? 32 | V6 => value d >? 128 end) with false.
      + rewrite RG. unfold number_to_netmask. destruct (Z.eqb_spec (value d) 0); [lia|]. destruct f; reflexivity.
      + symmetry. destruct f; cbn [octets] in Dv; rewrite Z.gtb_ltb; apply Z.ltb_ge; lia.
    - destruct f; cbn [octets] in Dv; unfold LONG_MAX; lia. }
  unfold origin_word. rewrite word_to_network; auto.
  - pose proof (netmask_ok (octets f) (value d)) as MO.
    rewrite (verdict_meaning _ s tl _ f b t (Some (netmask_bytes (octets f) (value d))) TA RN RT RL RF); [|apply RT2; apply MO; lia|apply MO; lia|exact R].
    cbn [matching]. assert (M : forall a, agree (octets f) (netmask_bytes (octets f) (value d)) a b <-> forall i, Z.of_nat i < value d -> addr_bit a i = addr_bit b i).
    { intro a. unfold agree. split; intros H i Hi.
      - apply H; [lia|]. rewrite netmask_bits by lia. apply Z.ltb_lt. exact Hi.
      - intro T. rewrite netmask_bits in T by lia. apply Z.ltb_lt in T. apply H. exact T. }
    split; (intros [(a & HA & HM)|HB]; [left; exists a; split; [exact HA|apply M; exact HM]|right; exact HB]).
  - destruct net; discriminate.
  - rewrite hd_app by exact Nn. exact H1.
  - rewrite hd_app by exact Nn. exact H2.
  - unfold last_char. destruct (@exists_last _ d Nd) as (d' & z & ->). rewrite forallb_app in Dd. apply andb_true_iff in Dd. destruct Dd as [_ Dz]. cbn [forallb] in Dz. rewrite andb_true_r in Dz.
    replace (net ++ c_slash :: d' ++ [z])%list with ((net ++ c_slash :: d') ++ [z])%list by (rewrite <- app_assoc; reflexivity). rewrite last_last. intros ->. discriminate.
  - apply (not_same _ _ c_slash); [apply in_or_app; right; left; reflexivity|exact slash_case|apply not_in_lit; reflexivity].
  - apply (not_same _ _ c_slash); [apply in_or_app; right; left; reflexivity|exact slash_case|apply not_in_lit; reflexivity].
Qed.

(** C53: a word network/mask stands for the hosts that have an address that agrees with the network where the mask has ones. *)
Theorem mask_word : forall net f b t mask m s,
  resolves net f b t -> net <> [] -> hd NUL net <> "@"%char -> hd NUL net <> "."%char -> ~ In c_slash net -> ~ In c_slash s ->
  is_address mask f m -> last_char (net ++ c_slash :: mask) <> "."%char -> remote_host s ->
  (ow (mkItem (Some s) true) (net ++ c_slash :: mask) = true <->
   (exists a, has_address s f a /\ forall i, (i < 8 * octets f)%nat -> addr_bit m i = true -> addr_bit a i = addr_bit b i) \/ both_loopback s t f).
Proof.
  intros net f b t mask m s (RA & RT & RN & tl & RG & RL & RF) Nn H1 H2 NSl NSs MA ML R.
  assert (W : ~ same_word (net ++ c_slash :: mask) s).
  { apply caseeq_not. apply (not_same _ _ c_slash); [apply in_or_app; right; left; reflexivity|exact slash_case|exact NSs]. }
  destruct (address_type _ _ _ MA) as [ME MB].
  assert (TA : token_addresses nodns pton ntop gai device (net ++ c_slash :: mask) = Some (tl, Some mask)).
  { unfold token_addresses. rewrite (proj2 (split_at_some c_slash (net ++ c_slash :: mask) net mask)) by auto.
    destruct (address_type _ _ _ RA) as [-> _]. rewrite ME, RG. reflexivity. }
  unfold origin_word. rewrite word_to_network; auto.
  - rewrite (verdict_meaning _ s tl _ f b t (Some m) TA RN RT RL RF); [reflexivity| |exact MB|exact R].
    destruct f; cbn [is_address] in MA; [destruct MA as [-> _]|destruct MA as (_ & -> & _)]; reflexivity.
  - destruct net; discriminate.
  - rewrite hd_app by exact Nn. exact H1.
  - rewrite hd_app by exact Nn. exact H2.
  - apply (not_same _ _ c_slash); [apply in_or_app; right; left; reflexivity|exact slash_case|apply not_in_lit; reflexivity].
  - apply (not_same _ _ c_slash); [apply in_or_app; right; left; reflexivity|exact slash_case|apply not_in_lit; reflexivity].
Qed.

(** C53: a word that is an address stands for the hosts that have this address, however it is written. *)
Theorem address_word : forall net f b t s,
  resolves net f b t -> net <> [] -> hd NUL net <> "@"%char -> hd NUL net <> "."%char -> last_char net <> "."%char -> ~ In c_slash net ->
  ~ same_word net (lit "all") -> ~ same_word net (lit "local") -> ~ same_word net s -> remote_host s ->
  (ow (mkItem (Some s) true) net = true <-> has_address s f b \/ both_loopback s t f).
Proof.
  intros net f b t s (RA & RT & RN & tl & RG & RL & RF) Nn H1 H2 H3 NSl A L W R.
  assert (TA : token_addresses nodns pton ntop gai device net = Some (tl, None)).
  { unfold token_addresses. rewrite (proj2 (split_at_none c_slash net)) by exact NSl.
    destruct (address_type _ _ _ RA) as [-> _]. rewrite RG. reflexivity. }
  unfold origin_word. rewrite word_to_network; auto; try (apply caseeq_not; assumption).
  rewrite (verdict_meaning _ s tl _ f b t None TA RN RT RL RF eq_refl Logic.I R). cbn [matching]. split.
  - intros [(a & H & ->)|H]; auto.
  - intros [H|H]; eauto.
Qed.

(** *** Users *)
(** C53: a word for a user, without @ and not in parentheses: ALL, the name (case does not matter), the uid, and unless nodefgroup is given
    a group. *)
Theorem plain_user_word : forall w, 0 <= uid -> ~ In "@"%char w -> hd NUL w <> "("%char ->
  (uw w = true <-> same_word w (lit "all") \/ same_word w user \/ w = decimal uid \/ (new_groups = false /\ in_group w = true)).
Proof.
  intros w U NA NP. unfold user_word, user_match.
  assert (IP : in_parens w = false) by (unfold in_parens; apply Ascii.eqb_neq in NP; rewrite NP; reflexivity).
  assert (HA : Ascii.eqb (hd NUL w) "@"%char = false).
  { apply Ascii.eqb_neq. intro X. destruct w as [|c w]; [discriminate|]. cbn [hd] in X. subst. apply NA. left. reflexivity. }
  assert (SP : split_user w = None).
  { unfold split_user. destruct (span (Ascii.eqb "@"%char) w) as [a r] eqn:E. apply span_app in E. destruct E as (E & _).
    rewrite (proj2 (split_at_none "@"%char r)); [reflexivity|]. intro I. apply NA. rewrite E. apply in_or_app. right. exact I. }
  rewrite IP, SP. unfold user_match_plain. rewrite IP, HA. unfold name_or_uid, string_match, only_digits.
  change (same_word w (lit "all")) with (same_word w (lit "ALL")). rewrite <- !caseeq_same.
  destruct (caseeq w (lit "ALL")) eqn:EA; [intuition|]. destruct (caseeq w user) eqn:EU; [intuition|].
  destruct (decimal_value uid U) as (DD & _ & _).
  assert (DE : forallb isdigit w = true -> (caseeq w (decimal uid) = true <-> w = decimal uid)).
  { intro D. rewrite caseeq_same. unfold same_word. rewrite !digits_lower by assumption. reflexivity. }
  destruct (forallb isdigit w) eqn:ED; cbn [negb].
  - specialize (DE eq_refl). destruct (caseeq w (decimal uid)); [intuition|]. destruct new_groups; cbn [negb andb]; intuition congruence.
  - assert (w <> decimal uid) by (intros ->; congruence). destruct new_groups; cbn [negb andb]; intuition congruence.
Qed.

(** C53: (group) and (gid). *)
Theorem group_word : forall g, g <> [] ->
  (uw ("("%char :: g ++ [")"%char]) = true <->
   in_group g = true \/ (forallb isdigit g = true /\ value g < 2 ^ 32 /\ in_gid (value g) = true)).
Proof.
  intros g N. unfold user_word, user_match.
  assert (IP : in_parens ("("%char :: g ++ [")"%char]) = true).
  { unfold in_parens, last_char. rewrite app_comm_cons, last_last. reflexivity. }
  rewrite IP. unfold group_match. cbn [length List.tl]. rewrite app_length. cbn [length].
  replace (S (length g + 1) <? 3)%nat with false by (symmetry; apply Nat.ltb_ge; destruct g; [congruence|cbn [length]; lia]).
  rewrite removelast_last. unfold name_or_gid, only_digits. destruct (in_group g); [intuition|].
  destruct (forallb isdigit g) eqn:D; cbn [negb]; [|intuition discriminate].
  pose proof (digits_all g 0 0 [] D (or_introl eq_refl)) as DA. rewrite app_nil_r in DA. rewrite DA.
  change (fold_left (fun v c => v * 10 + digit_val c) g 0) with (value g). destruct g as [|c g]; [congruence|]. change (2 ^ 32) with 4294967296.
  destruct (Z.ltb_spec (value (c :: g)) 4294967296); intuition (discriminate || lia).
Qed.

(** C53: @netgroup and @@netgroup. *)
Theorem netgroup_word : forall g, ~ In "@"%char g ->
  uw ("@"%char :: g) = innetgr g None (Some user) /\
  uw ("@"%char :: "@"%char :: g) = match hostname with Some h => innetgr g (Some h) (Some user) | None => false end.
Proof.
  intros g N. assert (SP : forall k, split_user (repeat "@"%char k ++ g) = None).
  { intro k. unfold split_user. rewrite span_spec.
    - rewrite (proj2 (split_at_none "@"%char g) N). reflexivity.
    - induction k; cbn [repeat forallb]; auto.
    - destruct g as [|c g]; [auto|]. right. exists c, g. split; [reflexivity|]. apply Ascii.eqb_neq. intros <-. apply N. left. reflexivity. }
  unfold user_word, user_match. split.
  - change (in_parens ("@"%char :: g)) with false. pose proof (SP 1%nat) as S1. cbn [repeat app] in S1. rewrite S1. unfold user_match_plain.
    change (in_parens ("@"%char :: g)) with false. cbn [hd nth List.tl]. change (Ascii.eqb "@" "@") with true. cbv iota.
    destruct (Ascii.eqb (nth 0 g NUL) "@"%char) eqn:E; [|reflexivity]. exfalso. apply Ascii.eqb_eq in E. destruct g as [|c g]; [discriminate|]. cbn [nth] in E. subst. apply N. left. reflexivity.
  - change (in_parens ("@"%char :: "@"%char :: g)) with false. pose proof (SP 2%nat) as S2. cbn [repeat app] in S2. rewrite S2. reflexivity.
Qed.

(** C53: user@host: the part before the @ stands for the user and the part after it for this machine's name, as a remote host would be looked up. *)
Theorem user_at_host_word : forall u h, u <> [] -> ~ In "@"%char u -> hd NUL u <> "("%char ->
  uw (u ++ "@"%char :: h) = match hostname with Some hn => uw u && ow (mkItem (Some hn) true) h | None => false end.
Proof.
  intros u h N NA NP.
  assert (IP : forall x, in_parens (u ++ x) = false) by (intro x; unfold in_parens; rewrite hd_app by exact N; apply Ascii.eqb_neq in NP; rewrite NP; reflexivity).
  assert (HA : Ascii.eqb "@"%char (hd NUL u) = false).
  { apply Ascii.eqb_neq. intro X. destruct u as [|c w]; [congruence|]. cbn [hd] in X. subst. apply NA. left. reflexivity. }
  assert (SN : forall x, span (Ascii.eqb "@"%char) (u ++ x) = ([], u ++ x)) by (intro x; destruct u as [|c u]; [congruence|]; cbn [app span hd] in *; rewrite HA; reflexivity).
  unfold user_word, origin_word, user_match. rewrite IP. pose proof (IP []) as IP0. rewrite app_nil_r in IP0. rewrite IP0.
  assert (S1 : split_user (u ++ "@"%char :: h) = Some (u, h)).
  { unfold split_user. rewrite SN. rewrite (proj2 (split_at_some "@"%char (u ++ "@"%char :: h) u h)) by auto. reflexivity. }
  assert (S2 : split_user u = None).
  { unfold split_user. pose proof (SN []) as S0. rewrite app_nil_r in S0. rewrite S0, (proj2 (split_at_none "@"%char u) NA). reflexivity. }
  rewrite S1, S2. destruct hostname as [hn|]; [|reflexivity]. destruct (user_match_plain _ _ _ _ _ _ _ u); cbn [negb andb]; [|reflexivity].
  destruct (from_match _ _ _ _ _ _ _ h (mkItem (Some hn) true) Unasked) as [[r c]| |]; reflexivity.
Qed.
(** C53: @netgroup@host and @@netgroup@host: the part before the last @ with the @ signs at its start is what stands for the user. *)
Theorem netgroup_at_host_word : forall k u h, u <> [] -> ~ In "@"%char u ->
  uw (repeat "@"%char (S k) ++ u ++ "@"%char :: h) = match hostname with Some hn => uw (repeat "@"%char (S k) ++ u) && ow (mkItem (Some hn) true) h | None => false end.
Proof.
  intros k u h N NA.
  assert (IP : forall x, in_parens (repeat "@"%char (S k) ++ x) = false) by reflexivity.
  assert (SN : forall x, span (Ascii.eqb "@"%char) (repeat "@"%char (S k) ++ u ++ x) = (repeat "@"%char (S k), u ++ x)).
  { intro x. apply span_spec.
    - clear. induction (S k) as [|n IH]; [reflexivity|exact IH].
    - right. destruct u as [|c u]; [congruence|]. exists c, (u ++ x). split; [reflexivity|]. apply Ascii.eqb_neq. intros <-. apply NA. left. reflexivity. }
  unfold user_word, origin_word, user_match. rewrite !IP.
  assert (S1 : split_user (repeat "@"%char (S k) ++ u ++ "@"%char :: h) = Some (repeat "@"%char (S k) ++ u, h)).
  { unfold split_user. rewrite SN. rewrite (proj2 (split_at_some "@"%char (u ++ "@"%char :: h) u h)) by auto. reflexivity. }
  assert (S2 : split_user (repeat "@"%char (S k) ++ u) = None).
  { unfold split_user. pose proof (SN []) as S0. rewrite app_nil_r in S0. rewrite S0, (proj2 (split_at_none "@"%char u) NA). reflexivity. }
  rewrite S1, S2. destruct hostname as [hn|]; [|reflexivity]. destruct (user_match_plain _ _ _ _ _ _ _ _); cbn [negb andb]; [|reflexivity].
  destruct (from_match _ _ _ _ _ _ _ h (mkItem (Some hn) true) Unasked) as [[r c]| |]; reflexivity.
Qed.
End Words.

(** ** Examples *)
Lemma octet_digits : forall x, 0 <= x -> forallb (fun c => isdigit c || Ascii.eqb c "."%char) (decimal x) = true /\ no_sep (lit ".") (decimal x).
Proof.
  intros x H. destruct (decimal_value x H) as (D & _ & _). split.
  - rewrite forallb_forall in *. intros c I. rewrite (D c I). reflexivity.
  - intros c I [<-|[]]. rewrite forallb_forall in D. specialize (D _ I). discriminate.
Qed.
(** The example of inet_pton inverts the example of inet_ntop. *)
Lemma example_roundtrip : forall x, bytes 4 x -> pton_ex V4 (ntop_ex V4 x) = Some x.
Proof.
  intros x (L & F). destruct x as [|a [|b [|c [|d [|e x]]]]]; try discriminate. cbn [pton_ex ntop_ex].
  repeat match goal with H : Forall _ (_ :: _) |- _ => inversion H; subst; clear H end.
  assert (W : strtoks (lit ".") (ntop_example [a; b; c; d]) = [decimal a; decimal b; decimal c; decimal d]).
  { apply words_strtoks. cbn [ntop_example]. cbn [lit list_ascii_of_string app].
    assert (S : forall z, 0 <= z -> decimal z <> [] /\ no_sep (lit ".") (decimal z)).
    { intros z Hz. destruct (decimal_value z Hz) as (_ & _ & N). split; [exact N|apply octet_digits; exact Hz]. }
    assert (P : all_sep (lit ".") []) by (intros ? []). assert (I : In "."%char (lit ".")) by (left; reflexivity).
    apply (words_more (lit ".") [] (decimal a) "."%char); [exact P|apply S; lia|apply S; lia|exact I|].
    apply (words_more (lit ".") [] (decimal b) "."%char); [exact P|apply S; lia|apply S; lia|exact I|].
    apply (words_more (lit ".") [] (decimal c) "."%char); [exact P|apply S; lia|apply S; lia|exact I|].
    apply (words_last (lit ".") [] (decimal d)); [exact P|apply S; lia|apply S; lia]. }
  unfold pton_example. rewrite W. cbn [map length Nat.eqb].
  rewrite !(fun z Hz => proj1 (proj2 (decimal_value z Hz))) by lia.
  assert (FB : forallb (fun c => isdigit c || Ascii.eqb c "."%char) (ntop_example [a; b; c; d]) = true).
  { cbn [ntop_example]. rewrite !forallb_app, !(fun z Hz => proj1 (octet_digits z Hz)) by lia. reflexivity. }
  rewrite FB. cbn [andb forallb].
  destruct (Z.ltb_spec a 256); [|lia]. destruct (Z.ltb_spec b 256); [|lia]. destruct (Z.ltb_spec c 256); [|lia]. destruct (Z.ltb_spec d 256); [|lia].
  cbn [andb]. rewrite streq_refl. reflexivity.
Qed.

Definition net_ex : cstr := lit "192.168.201.0".
Lemma net_ex_resolves : resolves pton_ex gai_ex numeric_ex net_ex V4 [192; 168; 201; 0] net_ex.
Proof.
  assert (A : is_address pton_ex net_ex V4 [192; 168; 201; 0]) by (split; [vm_compute; reflexivity|split; [reflexivity|repeat constructor; lia]]).
  split; [exact A|]. split; [exact A|]. split; [vm_compute; reflexivity|]. exists [mkAddr V4 [192; 168; 201; 0]]. repeat split; [discriminate|constructor; auto].
Qed.
Lemma host_ex_known : remote_host pton_ex gai_ex numeric_ex (lit "host.example.org").
Proof.
  eapply by_name; [reflexivity|reflexivity|]. intros a [<-|[]]. exists (lit "192.168.201.7").
  split; [vm_compute; reflexivity|]. split; [vm_compute; reflexivity|split; [reflexivity|repeat constructor; lia]].
Qed.

Example prefix_word_example :
  resolves pton_ex gai_ex numeric_ex net_ex V4 [192; 168; 201; 0] net_ex /\ remote_host pton_ex gai_ex numeric_ex (lit "host.example.org") /\
  (forall x, bytes 4 x -> pton_ex V4 (ntop_ex V4 x) = Some x) /\ value (lit "29") = 29 /\
  map (fun w => origin_word false (fun _ _ _ => false) pton_ex ntop_ex gai_ex numeric_ex (fun _ => false) (mkItem (Some (lit "host.example.org")) true) (lit w))
    ["192.168.201.0/24"; "192.168.201.0/29"; "192.168.201.0/30"; "192.168.201.0/255.255.255.0"; "192.168.201.0/255.0.0.255"; "192.168.201.7"; "192.168.201.8"; "192.168.201."; "192.168.20."; ".example.org"; ".EXAMPLE.org"; ".host.example.org"]%string =
    [true; true; false; true; false; true; false; true; false; true; true; false].
Proof.
  split; [exact net_ex_resolves|]. split; [exact host_ex_known|]. split; [exact example_roundtrip|]. split; vm_compute; reflexivity.
Qed.
Example mask_word_example : is_address pton_ex (lit "255.255.255.0") V4 [255; 255; 255; 0] /\ last_char (net_ex ++ c_slash :: lit "255.255.255.0") <> "."%char.
Proof. split; [split; [vm_compute; reflexivity|split; [reflexivity|repeat constructor; lia]]|vm_compute; discriminate]. Qed.
Example subnet_word_example :
  dots [192; 168] = lit "192.168." /\ ~ same_word (dots [192; 168]) (lit "host.example.org") /\
  (forall l a, gai_ex HInet (lit "host.example.org") = Some l -> In a l -> a_fam a = V4 ->
    Forall (fun x => 0 <= x < 256) (a_bytes a) /\ (ntop_ex V4 (a_bytes a) ++ lit ".")%list = dots (a_bytes a)).
Proof.
  split; [reflexivity|]. split; [unfold same_word; vm_compute; discriminate|]. intros l a H I _. vm_compute in H. injection H as <-. destruct I as [<-|[]].
  split; [repeat constructor; lia|reflexivity].
Qed.
Example user_words_example :
  map (fun w => user_word false false (lit "john") 1003 (fun g => streq g (lit "wheel")) (fun g => g =? 10) (fun g h u => streq g (lit "admins")) (Some (lit "here"))
     pton_ex ntop_ex gai_ex numeric_ex (fun _ => false) (lit w))
    ["ALL"; "john"; "JOHN"; "joe"; "1003"; "1004"; "wheel"; "(wheel)"; "(users)"; "(10)"; "(11)"; "@admins"; "@@admins"; "@users"; "john@here"; "john@there"; "joe@here"; "@admins@here"; "@@admins@there"]%string =
  [true; true; true; false; true; false; true; true; false; true; false; true; true; false; true; false; false; true; false].
Proof. vm_compute. reflexivity. Qed.
Example local_words_example :
  map (fun w => origin_word false (fun g h u => false) pton_ex ntop_ex gai_ex numeric_ex (fun _ => false) (mkItem (Some (lit "tty1")) false) (lit w))
    ["ALL"; "local"; "tty1"; "tty2"; "@g"; "10.0.0.0/8"]%string = [true; true; true; false; false; false].
Proof. vm_compute. reflexivity. Qed.

(** ** What is not so *)
(** C53: "network/0 stands for every address of the family" is false: a prefix of no bits is treated as no mask. *)
Theorem prefix_zero_refuted : exists net f b t s, resolves pton_ex gai_ex numeric_ex net f b t /\ remote_host pton_ex gai_ex numeric_ex s /\
  (exists a, has_address pton_ex gai_ex s f a /\ forall i, Z.of_nat i < 0 -> addr_bit a i = addr_bit b i) /\
  origin_word false (fun _ _ _ => false) pton_ex ntop_ex gai_ex numeric_ex (fun _ => false) (mkItem (Some s) true) (net ++ lit "/0") = false.
Proof.
  exists net_ex, V4, [192; 168; 201; 0], net_ex, (lit "host.example.org"). split; [exact net_ex_resolves|]. split; [exact host_ex_known|]. split.
  - exists [192; 168; 201; 7]. split; [right; split; [reflexivity|]; eexists; split; [reflexivity|left; reflexivity]|]. intros i H. lia.
  - vm_compute. reflexivity.
Qed.
(** C53: a prefix with a leading zero is read as octal: 192.168.201.0/030 stands for more than the addresses that share 30 bits. *)
Theorem prefix_decimal_refuted : exists d s, forallb isdigit d = true /\ value d = 30 /\
  (exists a i, has_address pton_ex gai_ex s V4 a /\ Z.of_nat i < 30 /\ addr_bit a i <> addr_bit [192; 168; 201; 0] i) /\
  origin_word false (fun _ _ _ => false) pton_ex ntop_ex gai_ex numeric_ex (fun _ => false) (mkItem (Some s) true) (net_ex ++ c_slash :: d) = true.
Proof.
  exists (lit "030"), (lit "192.168.201.7"). split; [reflexivity|]. split; [reflexivity|]. split.
  - exists [192; 168; 201; 7], 29%nat. split; [left; split; [vm_compute; reflexivity|split; [reflexivity|repeat constructor; lia]]|]. split; [reflexivity|]. vm_compute. discriminate.
  - vm_compute. reflexivity.
Qed.
(** C53: "a rule for one user applies to no other" is false: case does not matter in user names. *)
Theorem user_names_distinct_refuted : exists w u, w <> u /\ w <> decimal 7 /\
  user_word true true u 7 (fun _ => false) (fun _ => false) (fun _ _ _ => false) None pton_ex ntop_ex gai_ex numeric_ex (fun _ => false) w = true /\
  ~ In "@"%char w /\ ~ same_word w (lit "all").
Proof.
  exists (lit "root"), (lit "Root"). split; [discriminate|]. split; [discriminate|]. split; [vm_compute; reflexivity|]. split; [apply not_in_lit; reflexivity|].
  unfold same_word. vm_compute. discriminate.
Qed.
(** C53: "a word that is an IPv4 address stands for that address only" is false: 127.0.0.1 stands for ::1 as well. *)
Theorem address_of_one_family_refuted : exists pton gai numeric s w, is_address pton w V4 [127; 0; 0; 1] /\
  is_address pton s V6 [0; 0; 0; 0; 0; 0; 0; 0; 0; 0; 0; 0; 0; 0; 0; 1] /\
  origin_word true (fun _ _ _ => false) pton ntop_ex gai numeric (fun _ => false) (mkItem (Some s) true) w = true.
Proof.
  exists (fun f s => match f with V4 => pton_example s | V6 => if streq s (lit "::1") then Some [0; 0; 0; 0; 0; 0; 0; 0; 0; 0; 0; 0; 0; 0; 0; 1] else None end), gai_ex, numeric_ex, (lit "::1"), (lit "127.0.0.1").
  split; [split; [vm_compute; reflexivity|split; [reflexivity|repeat constructor; lia]]|]. split; [split; [reflexivity|split; [reflexivity|split; [reflexivity|repeat constructor; lia]]]|]. vm_compute. reflexivity.
Qed.

Print Assumptions local_origin_word.
Print Assumptions local_not_remote.
Print Assumptions remote_plain_word.
Print Assumptions domain_word.
Print Assumptions subnet_word.
Print Assumptions prefix_word.
Print Assumptions mask_word.
Print Assumptions address_word.
Print Assumptions plain_user_word.
Print Assumptions group_word.
Print Assumptions netgroup_word.
Print Assumptions user_at_host_word.
Print Assumptions netgroup_at_host_word.
Print Assumptions prefix_zero_refuted.
Print Assumptions prefix_decimal_refuted.
Print Assumptions user_names_distinct_refuted.
Print Assumptions address_of_one_family_refuted.
