(** C57: the password hashes of crypt_md5. *)
From Coq Require Import String Ascii List Arith NArith ZArith Bool Lia.
From Verif Require Import Base Hash_Spec Hash_Facts Str_Model Md5_Model Md5_Props Unix_Model Unixpw_Props.
Import ListNotations.
Local Open Scope Z_scope.

(** ** The algorithm, on whole messages *)
Definition octs (s : cstr) : list Z := map (fun c => Z.of_N (N_of_ascii c)) s.
(** The salt: after "$1$", if that comes first, up to eight characters before a dollar sign or the end. *)
Inductive salt_of : cstr -> cstr -> Prop :=
| SaltMagic : forall s r, ~ In "$"%char s -> (length s <= 8)%nat -> (length s = 8%nat \/ r = [] \/ hd_error r = Some "$"%char) -> salt_of (lit "$1$" ++ s ++ r) s
| SaltPlain : forall s r, is_prefix (lit "$1$") (s ++ r) = false -> ~ In "$"%char s -> (length s <= 8)%nat -> (length s = 8%nat \/ r = [] \/ hd_error r = Some "$"%char) -> salt_of (s ++ r) s.
(** The binary digits of the length, the lowest first: a zero octet for 1, the first character for 0. *)
Fixpoint digit_octets (n : positive) (first : list Z) : list Z :=
  match n with xH => [0] | xO n => first ++ digit_octets n first | xI n => 0 :: digit_octets n first end.
Definition length_octets (pw : list Z) : list Z := match Z.of_nat (length pw) with Zpos n => digit_octets n (firstn 1 pw) | _ => [] end.
(** As many octets as the password has, of a digest repeated. *)
Definition stretched (n : nat) (d : list Z) : list Z := firstn n (concat (repeat d n)).
Definition first_digest (pw s : list Z) : list Z := MD5 (pw ++ octs (lit "$1$") ++ s ++ stretched (length pw) (MD5 (pw ++ s ++ pw)) ++ length_octets pw).
Definition next_digest (pw s d : list Z) (i : nat) : list Z :=
  MD5 ((if Nat.odd i then pw else d) ++ (if (i mod 3 =? 0)%nat then [] else s) ++ (if (i mod 7 =? 0)%nat then [] else pw) ++ (if Nat.odd i then d else pw)).
Definition crypt_digest (pw s : list Z) : list Z := fold_left (next_digest pw s) (seq 0 1000) (first_digest pw s).

(** A number in base 64, the lowest digit first. *)
Definition alphabet64 : cstr := lit "./0123456789ABCDEFGHIJKLMNOPQRSTUVWXYZabcdefghijklmnopqrstuvwxyz".
Fixpoint place (c : ascii) (l : cstr) : Z := match l with [] => 0 | d :: l => if Ascii.eqb c d then 0 else 1 + place c l end.
Definition value64 (e : cstr) : Z := fold_right (fun c v => place c alphabet64 + 64 * v) 0 e.
(** The 22 characters show the 16 octets of the digest, three octets in four characters. *)
Inductive shown (d : list Z) : cstr -> Prop :=
| Shown : forall e0 e1 e2 e3 e4 e5, length e0 = 4%nat -> length e1 = 4%nat -> length e2 = 4%nat -> length e3 = 4%nat -> length e4 = 4%nat -> length e5 = 2%nat ->
    (forall c, In c (e0 ++ e1 ++ e2 ++ e3 ++ e4 ++ e5) -> In c alphabet64) ->
    value64 e0 = nth 0 d 0 * 65536 + nth 6 d 0 * 256 + nth 12 d 0 -> value64 e1 = nth 1 d 0 * 65536 + nth 7 d 0 * 256 + nth 13 d 0 ->
    value64 e2 = nth 2 d 0 * 65536 + nth 8 d 0 * 256 + nth 14 d 0 -> value64 e3 = nth 3 d 0 * 65536 + nth 9 d 0 * 256 + nth 15 d 0 ->
    value64 e4 = nth 4 d 0 * 65536 + nth 10 d 0 * 256 + nth 5 d 0 -> value64 e5 = nth 11 d 0 -> shown d (e0 ++ e1 ++ e2 ++ e3 ++ e4 ++ e5).

(** ** The pieces *)
Lemma codes_octets : forall s, Forall octet (codes s).
Proof.
  intro s. unfold codes. apply Forall_forall. intros x I. apply in_map_iff in I. destruct I as (c & <- & _). unfold octet. pose proof (N_ascii_bounded c). lia.
Qed.
Lemma codes_length : forall s, length (codes s) = length s.
Proof. intro s. apply map_length. Qed.
Lemma md5_octets : forall m, Forall octet (MD5 m) /\ length (MD5 m) = 16%nat.
Proof.
  intro m. unfold MD5. destruct (fold_left _ _ _) as [[[a b] c] d]. split; [do 3 (apply Forall_app; split; [apply octets_le_octet|]); apply octets_le_octet|].
  rewrite !app_length, !octets_le_length. reflexivity.
Qed.
Lemma repeat_more : forall (d : list Z) n k, (n <= k * length d)%nat -> firstn n (concat (repeat d k)) = firstn n (concat (repeat d n)) \/ d = [].
Proof.
  intros d n k L. destruct d as [|x d]; [right; reflexivity|left]. set (e := x :: d) in *. assert (P : (1 <= length e)%nat) by (subst e; cbn; lia). clearbody e.
  assert (G : forall a b, (a <= b)%nat -> (n <= a * length e)%nat -> firstn n (concat (repeat e b)) = firstn n (concat (repeat e a))).
  { intros a b AB NA. replace b with (a + (b - a))%nat by lia. rewrite repeat_app, concat_app, firstn_app.
    assert (LC : forall m, length (concat (repeat e m)) = (m * length e)%nat) by (induction m as [|m IH]; [reflexivity|cbn [repeat concat]; rewrite app_length, IH; lia]).
    rewrite LC. replace (n - a * length e)%nat with 0%nat by lia. rewrite firstn_O. apply app_nil_r. }
  destruct (Nat.le_ge_cases k n) as [H|H]; [symmetry; apply G; [exact H|exact L]|apply G; [exact H|nia]].
Qed.
Lemma chunks_stretched : forall fuel n d, length d = 16%nat -> (n < fuel)%nat -> concat (chunks fuel n d) = stretched n d.
Proof.
  intros fuel. induction fuel as [|fuel IH]; intros n d L F; [lia|]. cbn [chunks]. destruct (Nat.ltb_spec 0 n) as [P|P]; [|replace n with 0%nat by lia; reflexivity].
  cbn [concat]. rewrite IH by (try exact L; lia). unfold stretched. destruct n as [|n]; [lia|]. cbn [repeat concat]. rewrite firstn_app, L.
  destruct (Nat.ltb_spec 16 (S n)) as [G|G].
  - rewrite (firstn_all2 d) by lia. f_equal. destruct (repeat_more d (S n - 16) n) as [E|E]; [nia|symmetry; exact E|subst d; discriminate].
  - replace (S n - 16)%nat with 0%nat by lia. rewrite !firstn_O. reflexivity.
Qed.
Lemma chunks_octets : forall fuel n d, length d = 16%nat -> Forall octet d -> Forall (fun p => Forall octet p /\ Z.of_nat (length p) < 2 ^ 32) (chunks fuel n d).
Proof.
  induction fuel as [|fuel IH]; intros n d L O; cbn [chunks]; [constructor|]. destruct (0 <? n)%nat; [|constructor]. constructor; [|apply IH; assumption].
  destruct (16 <? n)%nat; [split; [exact O|rewrite L; reflexivity]|]. split; [rewrite <- (firstn_skipn n d) in O; apply Forall_app in O; tauto|rewrite firstn_length; lia].
Qed.
Lemma weird_digits : forall fuel n pw, (Pos.to_nat n < fuel)%nat -> concat (weird fuel (Pos.to_nat n) pw) = digit_octets n (firstn 1 pw).
Proof.
  induction fuel as [|fuel IH]; intros n pw F; [lia|]. cbn [weird]. destruct (Nat.eqb_spec (Pos.to_nat n) 0) as [Z0|_]; [lia|]. destruct n as [n|n|].
  - replace (Nat.odd (Pos.to_nat n~1)) with true by (rewrite Pos2Nat.inj_xI; symmetry; apply Nat.odd_spec; exists (Pos.to_nat n); lia).
    replace (Nat.div2 (Pos.to_nat n~1)) with (Pos.to_nat n) by (rewrite Pos2Nat.inj_xI; symmetry; apply Nat.div2_succ_double).
    cbn [concat digit_octets app]. rewrite IH by lia. reflexivity.
  - replace (Nat.odd (Pos.to_nat n~0)) with false by (rewrite Pos2Nat.inj_xO; symmetry; rewrite <- Nat.negb_even; apply negb_false_iff, Nat.even_spec; exists (Pos.to_nat n); reflexivity).
    replace (Nat.div2 (Pos.to_nat n~0)) with (Pos.to_nat n) by (rewrite Pos2Nat.inj_xO; symmetry; apply Nat.div2_double).
    cbn [concat digit_octets app]. rewrite IH by lia. reflexivity.
  - cbn. destruct fuel; reflexivity.
Qed.
Lemma weird_length : forall pw, concat (weird (S (length pw)) (length pw) pw) = length_octets pw.
Proof.
  intro pw. unfold length_octets. destruct (Z.of_nat (length pw)) as [|n|n] eqn:E; [destruct pw; [reflexivity|discriminate]| |lia].
  assert (L : length pw = Pos.to_nat n) by lia. rewrite L. apply weird_digits. lia.
Qed.
Lemma weird_octets : forall fuel n pw, Forall octet pw -> Forall (fun p => Forall octet p /\ Z.of_nat (length p) < 2 ^ 32) (weird fuel n pw).
Proof.
  induction fuel as [|fuel IH]; intros n pw O; cbn [weird]; [constructor|]. destruct (n =? 0)%nat; [constructor|]. constructor; [|apply IH; exact O].
  destruct (Nat.odd n); [split; [repeat constructor; discriminate|reflexivity]|]. split; [destruct O as [|x l X O]; cbn [firstn]; [apply Forall_nil|apply Forall_cons; [exact X|apply Forall_nil]]|destruct pw; reflexivity].
Qed.

(** ** The salt *)
Lemma upto_spec : forall n s, exists r, s = (upto_dollar n s ++ r)%list /\ ~ In "$"%char (upto_dollar n s) /\ (length (upto_dollar n s) <= n)%nat /\
  (length (upto_dollar n s) = n \/ r = [] \/ hd_error r = Some "$"%char).
Proof.
  induction n as [|n IH]; intros [|c s].
  - exists []. cbn. intuition lia.
  - exists (c :: s). cbn. intuition lia.
  - exists []. cbn. intuition lia.
  - cbn [upto_dollar]. destruct (Ascii.eqb_spec c "$"%char) as [->|N].
    + exists ("$"%char :: s). cbn. intuition lia.
    + destruct (IH s) as (r & E & NI & LN & D). exists r. cbn [app length In]. split; [rewrite <- E; reflexivity|]. split; [intros [Q|Q]; [exact (N Q)|exact (NI Q)]|]. split; [lia|]. destruct D as [D|D]; [left; lia|right; exact D].
Qed.
Lemma upto_unique : forall n s r, ~ In "$"%char s -> (length s <= n)%nat -> (length s = n \/ r = [] \/ hd_error r = Some "$"%char) -> upto_dollar n (s ++ r) = s.
Proof.
  induction n as [|n IH]; intros s r NI LN D; [destruct s; [destruct r; reflexivity|cbn [length] in LN; lia]|]. destruct s as [|c s]; cbn [app upto_dollar].
  - destruct r as [|c r]; [reflexivity|]. cbn [length hd_error] in D. destruct D as [D|[D|D]]; try discriminate. injection D as ->. reflexivity.
  - destruct (Ascii.eqb_spec c "$"%char) as [->|N]; [destruct NI; left; reflexivity|]. f_equal. apply IH; [intros I; apply NI; right; exact I|cbn [length] in LN; lia|]. cbn [length] in D. destruct D as [D|D]; [left; lia|right; exact D].
Qed.
Lemma refine_salt : forall salt, salt_of salt (refine salt).
Proof.
  intro salt. unfold refine. destruct (is_prefix (lit "$1$") salt) eqn:P.
  - apply is_prefix_spec in P. destruct P as (t & ->). change (skipn 3 (lit "$1$" ++ t)%list) with t. destruct (upto_spec 8 t) as (r & E & NI & LN & D). rewrite E at 1. apply SaltMagic; assumption.
  - destruct (upto_spec 8 salt) as (r & E & NI & LN & D). rewrite E at 1. apply SaltPlain; try assumption. rewrite <- E. exact P.
Qed.
Lemma salt_unique : forall salt s, salt_of salt s -> refine salt = s.
Proof.
  intros salt s H. destruct H as [s r NI LN D|s r P NI LN D]; unfold refine.
  - assert (P : is_prefix (lit "$1$") (lit "$1$" ++ s ++ r) = true) by (apply is_prefix_spec; exists (s ++ r)%list; reflexivity). rewrite P. apply upto_unique; assumption.
  - rewrite P. apply upto_unique; assumption.
Qed.

(** ** The whole *)
Section Crypt.
Variable hf big : bool.
Variable junk : list Z.
Hypothesis good : hf = true \/ big = false.
Hypothesis junk64 : length junk = 64%nat.

Lemma digest_ok : forall l, Forall (fun p => Forall octet p /\ Z.of_nat (length p) < 2 ^ 32) l -> digest hf big junk l = Ok (MD5 (concat l)).
Proof.
  intros l F. apply digest_is_md5; [exact good|exact junk64| |]; apply Forall_forall; rewrite Forall_forall in F; intros p I; apply F; exact I.
Qed.
Lemma turns_ok : forall n i pw s d, Forall octet pw -> Forall octet s -> Z.of_nat (length pw) < 2 ^ 32 -> Z.of_nat (length s) < 2 ^ 32 -> Forall octet d -> length d = 16%nat ->
  turns hf big junk n i pw s d = Ok (fold_left (next_digest pw s) (seq i n) d).
Proof.
  induction n as [|n IH]; intros i pw s d OP OS LP LS OD LD; cbn [turns seq fold_left]; [reflexivity|].
  assert (LD' : Z.of_nat (length d) < 2 ^ 32) by (rewrite LD; reflexivity).
  rewrite digest_ok.
  - cbn [bind]. assert (Q : MD5 (concat (turn_pieces i pw s d)) = next_digest pw s d i).
    { unfold next_digest, turn_pieces. f_equal. cbn [concat]. f_equal. rewrite !concat_app. cbn [concat]. rewrite app_nil_r. f_equal; [|f_equal]; destruct (_ =? 0)%nat; cbn [concat]; rewrite ?app_nil_r; reflexivity. }
    rewrite Q. destruct (md5_octets ((if Nat.odd i then pw else d) ++ (if (i mod 3 =? 0)%nat then [] else s) ++ (if (i mod 7 =? 0)%nat then [] else pw) ++ (if Nat.odd i then d else pw))) as [O L]. apply IH; assumption.
  - unfold turn_pieces. constructor; [destruct (Nat.odd i); auto|]. apply Forall_app. split; [destruct (_ =? 0)%nat; repeat constructor; assumption|]. apply Forall_app. split; [destruct (_ =? 0)%nat; repeat constructor; assumption|]. constructor; [destruct (Nat.odd i); auto|constructor].
Qed.

Lemma crypt_value : forall pw salt s mem, salt_of salt s -> Z.of_nat (length pw) < 2 ^ 31 ->
  crypt_md5 hf big junk mem pw salt = Ok (if mem then Some (lit "$1$" ++ s ++ lit "$" ++ encode (crypt_digest (octs pw) (octs s)))%list else None).
Proof.
  intros pw salt s mem SA LP. unfold crypt_md5. cbv zeta. rewrite (salt_unique _ _ SA). change (codes pw) with (octs pw). change (codes s) with (octs s). change (codes (lit "$1$")) with (octs (lit "$1$")).
  pose proof (codes_octets pw) as OP. pose proof (codes_octets s) as OS. assert (LPW : Z.of_nat (length (octs pw)) < 2 ^ 32) by (unfold octs; rewrite map_length; lia).
  assert (LS : Z.of_nat (length (octs s)) < 2 ^ 32) by (unfold octs; rewrite map_length; destruct SA; lia). change (codes pw) with (octs pw) in OP. change (codes s) with (octs s) in OS.
  set (p := octs pw) in *. set (q := octs s) in *. clearbody p q.
  rewrite digest_ok by (repeat constructor; assumption). cbn [bind concat]. rewrite app_nil_r. destruct (md5_octets (p ++ q ++ p)) as [O1 L1]. set (d1 := MD5 (p ++ q ++ p)) in *. 
  rewrite digest_ok.
  - cbn [bind]. assert (Q : MD5 (concat ([p; octs (lit "$1$"); q] ++ chunks (S (length p)) (length p) d1 ++ weird (S (length p)) (length p) p)) = first_digest p q).
    { unfold first_digest. f_equal. rewrite !concat_app. cbn [concat]. rewrite app_nil_r, chunks_stretched, weird_length by (try exact L1; lia). rewrite <- !app_assoc. reflexivity. }
    rewrite Q. assert (OL : Forall octet (first_digest p q) /\ length (first_digest p q) = 16%nat) by apply md5_octets. destruct OL as [O2 L2].
    rewrite turns_ok by assumption. unfold crypt_digest. remember (fold_left (next_digest p q) (seq 0 1000) (first_digest p q)) as f eqn:Ef. clear Ef. destruct mem; reflexivity.
  - apply Forall_app. split; [|apply Forall_app; split; [apply chunks_octets; assumption|apply weird_octets; exact OP]].
    repeat constructor; try assumption; try discriminate.
Qed.
End Crypt.

(** ** The characters of the digest *)
Lemma itoa_nodup : NoDup itoa64.
Proof.
  assert (D : forall l : list ascii, (fix nd l := match l with [] => true | c :: l => negb (existsb (Ascii.eqb c) l) && nd l end) l = true -> NoDup l).
  { induction l as [|c l IH]; intros H; [constructor|]. apply andb_true_iff in H. destruct H as [H1 H2]. constructor; [|apply IH; exact H2]. intros I. apply negb_true_iff in H1. assert (E : existsb (Ascii.eqb c) l = true) by (apply existsb_exists; exists c; split; [exact I|apply Ascii.eqb_refl]). congruence. }
  apply D. vm_compute. reflexivity.
Qed.
Lemma to64_length : forall n v, length (to64 v n) = n.
Proof. induction n as [|n IH]; intro v; cbn [to64 length]; auto. Qed.
Lemma to64_chars : forall n v c, In c (to64 v n) -> In c itoa64.
Proof.
  induction n as [|n IH]; intros v c I; cbn [to64] in I; [destruct I|]. destruct I as [<-|I]; [|eapply IH; exact I]. apply nth_In. change 63 with (Z.ones 6). rewrite Z.land_ones by lia.
  pose proof (Z.mod_pos_bound v (2 ^ 6) eq_refl). change (length itoa64) with 64%nat. lia.
Qed.
Lemma to64_inj : forall n v w, 0 <= v < 64 ^ Z.of_nat n -> 0 <= w < 64 ^ Z.of_nat n -> to64 v n = to64 w n -> v = w.
Proof.
  induction n as [|n IH]; intros v w V W E; [change (64 ^ Z.of_nat 0) with 1 in *; lia|]. cbn [to64] in E. injection E as E1 E2. rewrite Nat2Z.inj_succ, Z.pow_succ_r in V, W by lia.
  change 63 with (Z.ones 6) in E1. rewrite !Z.land_ones in E1 by lia. rewrite !Z.shiftr_div_pow2 in E2 by lia. change (2 ^ 6) with 64 in *.
  pose proof (Z.mod_pos_bound v 64 eq_refl). pose proof (Z.mod_pos_bound w 64 eq_refl).
  assert (Q : Z.to_nat (v mod 64) = Z.to_nat (w mod 64)) by (apply (proj1 (NoDup_nth itoa64 NUL) itoa_nodup); [change (length itoa64) with 64%nat; lia|change (length itoa64) with 64%nat; lia|exact E1]).
  assert (D : v / 64 = w / 64) by (apply IH; [split; [apply Z.div_pos; lia|apply Z.div_lt_upper_bound; lia]|split; [apply Z.div_pos; lia|apply Z.div_lt_upper_bound; lia]|exact E2]).
  pose proof (Z.div_mod v 64 ltac:(discriminate)). pose proof (Z.div_mod w 64 ltac:(discriminate)). lia.
Qed.
Lemma at3_value : forall f i j k, Forall octet f -> at3 f i j k = nth i f 0 * 65536 + nth j f 0 * 256 + nth k f 0 /\ octet (nth i f 0) /\ octet (nth j f 0) /\ octet (nth k f 0).
Proof.
  intros f i j k O. assert (N : forall n, octet (nth n f 0)).
  { intro n. destruct (Nat.lt_ge_cases n (length f)) as [L|L]; [rewrite Forall_forall in O; apply O, nth_In, L|rewrite nth_overflow by exact L; unfold octet; lia]. }
  split; [|auto]. unfold at3. pose proof (N i) as I. pose proof (N j) as J. pose proof (N k) as K. unfold octet in *. rewrite <- Z.lor_assoc. rewrite (lor_add _ _ 8) by lia. rewrite (lor_add _ _ 16) by lia. lia.
Qed.
(** The characters tell the digest. *)
Theorem encoding_loses_nothing : forall f g, Forall octet f -> Forall octet g -> length f = 16%nat -> length g = 16%nat -> encode f = encode g -> f = g.
Proof.
  intros f g OF OG LF LG E. unfold encode in E.
  assert (S : forall a b (x y : cstr) n, (to64 a n ++ x = to64 b n ++ y)%list -> to64 a n = to64 b n /\ x = y).
  { intros a b x y n H. assert (L : length (to64 a n) = length (to64 b n)) by (rewrite !to64_length; reflexivity). apply app_inv_length in H || idtac. revert L H. generalize (to64 a n) (to64 b n). intros l. induction l as [|c l IH]; intros [|d m] L H; try discriminate; [auto|]. cbn in H. injection H as -> H. injection L as L. destruct (IH m L H) as [-> ->]. auto. }
  apply S in E. destruct E as [E1 E]. apply S in E. destruct E as [E2 E]. apply S in E. destruct E as [E3 E]. apply S in E. destruct E as [E4 E]. apply S in E. destruct E as [E5 E6].
  assert (T : forall i j k, to64 (at3 f i j k) 4 = to64 (at3 g i j k) 4 -> nth i f 0 = nth i g 0 /\ nth j f 0 = nth j g 0 /\ nth k f 0 = nth k g 0).
  { intros i j k H. destruct (at3_value f i j k OF) as (VF & A1 & A2 & A3). destruct (at3_value g i j k OG) as (VG & B1 & B2 & B3). rewrite VF, VG in H. unfold octet in *. apply to64_inj in H; [lia|change (64 ^ Z.of_nat 4) with 16777216; lia|change (64 ^ Z.of_nat 4) with 16777216; lia]. }
  apply T in E1, E2, E3, E4, E5. destruct (at3_value f 11 0 0 OF) as (_ & A1 & _). destruct (at3_value g 11 0 0 OG) as (_ & B1 & _). unfold octet in *. apply to64_inj in E6; [|change (64 ^ Z.of_nat 2) with 4096; lia|change (64 ^ Z.of_nat 2) with 4096; lia].
  apply (nth_ext f g 0 0); [congruence|]. intros n L. rewrite LF in L. do 16 (destruct n as [|n]; [tauto|]). lia.
Qed.
Lemma digest_octets : forall pw s, Forall octet (crypt_digest pw s) /\ length (crypt_digest pw s) = 16%nat.
Proof.
  intros pw s. unfold crypt_digest. assert (G : forall l d, Forall octet d /\ length d = 16%nat -> Forall octet (fold_left (next_digest pw s) l d) /\ length (fold_left (next_digest pw s) l d) = 16%nat).
  { induction l as [|i l IH]; intros d H; [exact H|]. cbn [fold_left]. apply IH. apply md5_octets. }
  apply G. apply md5_octets.
Qed.

Lemma place_nth : forall (l : cstr), NoDup l -> forall n, (n < length l)%nat -> place (nth n l NUL) l = Z.of_nat n.
Proof.
  induction 1 as [|d l NI ND IH]; intros n L; [cbn [length] in L; lia|]. destruct n as [|n]; cbn [nth place]; [rewrite Ascii.eqb_refl; reflexivity|]. cbn [length] in L.
  destruct (Ascii.eqb_spec (nth n l NUL) d) as [E|_]; [exfalso; apply NI; rewrite <- E; apply nth_In; lia|]. rewrite IH by lia. lia.
Qed.
Lemma to64_value : forall n v, 0 <= v < 64 ^ Z.of_nat n -> value64 (to64 v n) = v.
Proof.
  induction n as [|n IH]; intros v V; [change (64 ^ Z.of_nat 0) with 1 in V; cbn; lia|]. rewrite Nat2Z.inj_succ, Z.pow_succ_r in V by lia.
  cbn [to64 value64 fold_right]. change (fold_right _ 0 (to64 (Z.shiftr v 6) n)) with (value64 (to64 (Z.shiftr v 6) n)). change 63 with (Z.ones 6). rewrite Z.land_ones, Z.shiftr_div_pow2 by lia. change (2 ^ 6) with 64.
  pose proof (Z.mod_pos_bound v 64 eq_refl). rewrite IH by (split; [apply Z.div_pos; lia|apply Z.div_lt_upper_bound; lia]).
  change alphabet64 with itoa64. rewrite place_nth by (try exact itoa_nodup; change (length itoa64) with 64%nat; lia). pose proof (Z.div_mod v 64 ltac:(discriminate)). lia.
Qed.
Lemma encode_shown : forall f, Forall octet f -> shown f (encode f).
Proof.
  intros f O. unfold encode.
  assert (V : forall i j k, value64 (to64 (at3 f i j k) 4) = nth i f 0 * 65536 + nth j f 0 * 256 + nth k f 0).
  { intros i j k. destruct (at3_value f i j k O) as (V & A & B & C). unfold octet in *. rewrite to64_value; [exact V|]. change (64 ^ Z.of_nat 4) with 16777216. lia. }
  destruct (at3_value f 11 0 0 O) as (_ & A & _). unfold octet in A.
  apply Shown; try apply to64_length; try apply V.
  - intros c I. rewrite !in_app_iff in I. destruct I as [I|[I|[I|[I|[I|I]]]]]; apply to64_chars in I; exact I.
  - apply to64_value. change (64 ^ Z.of_nat 2) with 4096. lia.
Qed.
(** C57: the hash is the magic string, the salt, a dollar sign and the characters of the digest; it does not depend on
    what the uninitialised buffers contain, nor, for the good variant, on the byte order. *)
Theorem hash_is_md5crypt : forall pw salt s, salt_of salt s -> Z.of_nat (length pw) < 2 ^ 31 -> exists e, shown (crypt_digest (octs pw) (octs s)) e /\
  forall hf big junk mem, hf = true \/ big = false -> length junk = 64%nat -> crypt_md5 hf big junk mem pw salt = Ok (if mem then Some (lit "$1$" ++ s ++ lit "$" ++ e)%list else None).
Proof.
  intros pw salt s SA L. exists (encode (crypt_digest (octs pw) (octs s))). split; [apply encode_shown, digest_octets|]. intros hf big junk mem G J. apply crypt_value; assumption.
Qed.

(** ** Consequences *)
Section Uses.
Variable hf big : bool.
Variable junk : list Z.
Hypothesis good : hf = true \/ big = false.
Hypothesis junk64 : length junk = 64%nat.
Notation crypt := (crypt_md5 hf big junk true).

Lemma dollar_not_char : ~ In "$"%char itoa64.
Proof. cbv. intuition discriminate. Qed.
Lemma encode_chars : forall f c, In c (encode f) -> In c itoa64.
Proof. intros f c I. unfold encode in I. rewrite !in_app_iff in I. destruct I as [I|[I|[I|[I|[I|I]]]]]; apply to64_chars in I; exact I. Qed.
Lemma encode_length : forall f, length (encode f) = 22%nat.
Proof. intro f. unfold encode. rewrite !app_length, !to64_length. reflexivity. Qed.
Lemma salt_of_self : forall salt s r, salt_of salt s -> salt_of (lit "$1$" ++ s ++ lit "$" ++ r) s.
Proof. intros salt s r H. destruct H as [s r0 NI LN D|s r0 P NI LN D]; apply SaltMagic; auto; right; right; reflexivity. Qed.

(** A hash is its own salt: hashing the password again with the hash in place of the salt gives the hash. *)
Theorem hash_verifies : forall pw salt h, Z.of_nat (length pw) < 2 ^ 31 -> crypt pw salt = Ok (Some h) -> crypt pw h = Ok (Some h).
Proof.
  intros pw salt h L H. rewrite (crypt_value hf big junk good junk64 pw salt _ true (refine_salt salt) L) in H. injection H as <-.
  apply (crypt_value hf big junk good junk64 pw _ _ true (salt_of_self _ _ _ (refine_salt salt)) L).
Qed.
(** Its form: at most 8 characters of salt without a dollar sign, 22 characters of the alphabet. *)
Theorem hash_form : forall pw salt, Z.of_nat (length pw) < 2 ^ 31 -> exists s e, crypt pw salt = Ok (Some (lit "$1$" ++ s ++ lit "$" ++ e)%list) /\
  salt_of salt s /\ length e = 22%nat /\ forall c, In c e -> In c (lit "./0123456789ABCDEFGHIJKLMNOPQRSTUVWXYZabcdefghijklmnopqrstuvwxyz").
Proof.
  intros pw salt L. exists (refine salt), (encode (crypt_digest (octs pw) (octs (refine salt)))). rewrite (crypt_value hf big junk good junk64 pw salt _ true (refine_salt salt) L).
  split; [reflexivity|]. split; [apply refine_salt|]. split; [apply encode_length|apply encode_chars].
Qed.
(** Two passwords have the same hash exactly when their digests agree: the encoding adds no collisions. *)
Theorem same_hash_same_digest : forall pw pw' salt s, salt_of salt s -> Z.of_nat (length pw) < 2 ^ 31 -> Z.of_nat (length pw') < 2 ^ 31 ->
  (crypt pw salt = crypt pw' salt <-> crypt_digest (octs pw) (octs s) = crypt_digest (octs pw') (octs s)).
Proof.
  intros pw pw' salt s SA L L'. rewrite (crypt_value hf big junk good junk64 pw salt s true SA L), (crypt_value hf big junk good junk64 pw' salt s true SA L'). split; [|intros ->; reflexivity].
  intros H. injection H as H. apply app_inv_head in H. apply (app_inv_head ["$"%char] (encode _) (encode _)) in H. destruct (digest_octets (octs pw) (octs s)) as [O1 L1]. destruct (digest_octets (octs pw') (octs s)) as [O2 L2]. apply encoding_loses_nothing; assumption.
Qed.
(** pam_unix and unix_chkpwd accept the password whose hash is stored, and no other one unless its digest agrees. *)
Definition as_crypt (f : cstr -> cstr -> res (option cstr)) (pw h : cstr) : option cstr := match f pw h with Ok o => o | _ => None end.
Theorem stored_hash_accepted : forall other old pw salt h nullok, pw <> [] -> Z.of_nat (length pw) < 2 ^ 31 -> crypt pw salt = Ok (Some h) ->
  verify_hash other (as_crypt crypt) old true (Some pw) h nullok = Ok 0.
Proof.
  intros other old pw salt h nullok N L H. pose proof (hash_verifies _ _ _ L H) as V. destruct (hash_form pw salt L) as (s & e & F & _).
  assert (Q : exists t, h = ("$" :: "1" :: "$" :: t)%char) by (exists (s ++ lit "$" ++ e)%list; rewrite H in F; injection F as ->; reflexivity). clear F H. destruct Q as (t & Q).
  apply right_is_accepted. apply RightHash with (e := h); [rewrite Q; apply EffDollar|rewrite Q; discriminate|left; exact N|rewrite Q; discriminate|rewrite Q; discriminate|].
  apply GivesMd5; [rewrite Q; reflexivity|]. unfold as_crypt. rewrite V. reflexivity.
Qed.
End Uses.
(** On a little-endian machine, with the two variants pam_unix compiles; the buffers of each may hold anything. *)
Lemma wrong_password_refused : forall other junk junk' pw pw' salt h nullok s, length junk = 64%nat -> length junk' = 64%nat -> salt_of salt s -> Z.of_nat (length pw) < 2 ^ 31 -> Z.of_nat (length pw') < 2 ^ 31 ->
  crypt_md5 true false junk true pw salt = Ok (Some h) -> crypt_digest (octs pw) (octs s) <> crypt_digest (octs pw') (octs s) ->
  verify_hash other (as_crypt (crypt_md5 true false junk true)) (as_crypt (crypt_md5 false false junk' true)) true (Some pw') h nullok = Ok 7.
Proof.
  intros other junk junk' pw pw' salt h nullok s J J' SA L L' H N. rewrite (crypt_value true false junk (or_introl eq_refl) J pw salt s true SA L) in H.
  pose proof (fun hf g jk jl => crypt_value hf false jk g jl pw' _ s true (salt_of_self _ _ (encode (crypt_digest (octs pw) (octs s))) SA) L') as H'.
  destruct (digest_octets (octs pw) (octs s)) as [O1 L1]. destruct (digest_octets (octs pw') (octs s)) as [O2 L2].
  pose proof (fun Q => N (encoding_loses_nothing _ _ O1 O2 L1 L2 Q)) as NE. clear N O1 L1 O2 L2.
  remember (encode (crypt_digest (octs pw) (octs s))) as e eqn:Ee. clear Ee. remember (encode (crypt_digest (octs pw') (octs s))) as e' eqn:Ee'. clear Ee'.
  assert (HE : h = (lit "$1$" ++ s ++ lit "$" ++ e)%list) by (injection H as <-; reflexivity). clear H. rewrite <- HE in H'. set (h' := (lit "$1$" ++ s ++ lit "$" ++ e')%list) in *.
  assert (NH : streq h' h = false).
  { apply not_true_iff_false. rewrite streq_eq. intros Q. subst h h'. apply app_inv_head in Q. apply app_inv_head in Q. apply app_inv_head in Q. apply NE. congruence. }
  assert (Q : exists t, h = ("$" :: "1" :: "$" :: t)%char) by (exists (s ++ lit "$" ++ e)%list; rewrite HE; reflexivity). clear HE NE. destruct Q as (t & Q).
  assert (G : as_crypt (crypt_md5 true false junk true) pw' h = Some h') by (unfold as_crypt; rewrite (H' true (or_introl eq_refl) junk J); reflexivity).
  assert (B : as_crypt (crypt_md5 false false junk' true) pw' h = Some h') by (unfold as_crypt; rewrite (H' false (or_intror eq_refl) junk' J'); reflexivity). clear H'. clearbody h'.
  set (g := as_crypt (crypt_md5 true false junk true)) in *. set (k := as_crypt (crypt_md5 false false junk' true)) in *. clearbody g k. 
  unfold verify_hash. cbv zeta. assert (SH : strip_aging h = h) by (rewrite Q; reflexivity). rewrite SH. assert (PR : is_prefix (lit "$1$") h = true) by (rewrite Q; reflexivity). rewrite PR, G, NH, B. cbn [bind]. rewrite NH.
  destruct (_ && _); [reflexivity|]. rewrite Q. reflexivity.
Qed.
(** Either the digests agree and the password is accepted, or they do not and it is refused. *)
Theorem accepted_iff_digests_agree : forall other junk junk' pw pw' salt h nullok s, length junk = 64%nat -> length junk' = 64%nat -> salt_of salt s -> Z.of_nat (length pw) < 2 ^ 31 -> Z.of_nat (length pw') < 2 ^ 31 ->
  crypt_md5 true false junk true pw salt = Ok (Some h) -> pw' <> [] ->
  (crypt_digest (octs pw) (octs s) = crypt_digest (octs pw') (octs s) /\ verify_hash other (as_crypt (crypt_md5 true false junk true)) (as_crypt (crypt_md5 false false junk' true)) true (Some pw') h nullok = Ok 0) \/
  (crypt_digest (octs pw) (octs s) <> crypt_digest (octs pw') (octs s) /\ verify_hash other (as_crypt (crypt_md5 true false junk true)) (as_crypt (crypt_md5 false false junk' true)) true (Some pw') h nullok = Ok 7).
Proof.
  intros other junk junk' pw pw' salt h nullok s J J' SA L L' H N. destruct (list_eq_dec Z.eq_dec (crypt_digest (octs pw) (octs s)) (crypt_digest (octs pw') (octs s))) as [E|E]; [left|right]; (split; [exact E|]).
  - apply (stored_hash_accepted true false junk (or_introl eq_refl) J other _ pw' salt h nullok N L').
    rewrite <- H. symmetry. apply (same_hash_same_digest true false junk (or_introl eq_refl) J pw pw' salt s SA L L'). exact E.
  - exact (wrong_password_refused other junk junk' pw pw' salt h nullok s J J' SA L L' H E).
Qed.
(** A salt as it is found in a stored hash; the digests before and after the first two rounds (the full computation is
    left out here because the checker of the compiled files would take too long for it). *)
Example crypt_example : salt_of (lit "$1$abcdefgh$xxx") (lit "abcdefgh") /\ (exists h, crypt_md5 true false (repeat 7 64) true (lit "password") (lit "$1$abcdefgh$xxx") = Ok (Some h)) /\
  first_digest (octs (lit "password")) (octs (lit "abcdefgh")) = [15; 204; 168; 42; 146; 207; 13; 189; 131; 100; 39; 43; 67; 61; 94; 128] /\
  fold_left (next_digest (octs (lit "password")) (octs (lit "abcdefgh"))) (seq 0 2) (first_digest (octs (lit "password")) (octs (lit "abcdefgh"))) = [84; 48; 124; 90; 167; 13; 16; 30; 177; 149; 164; 57; 84; 84; 173; 210].
Proof.
  split; [apply (SaltMagic (lit "abcdefgh") (lit "$xxx")); [cbv; intuition discriminate|cbn; lia|left; reflexivity]|]. split; [|split; vm_compute; reflexivity].
  destruct (hash_form true false (repeat 7 64) (or_introl eq_refl) eq_refl (lit "password") (lit "$1$abcdefgh$xxx") eq_refl) as (s & e & H & _). eexists. exact H.
Qed.
(** The characters of the digest of "password" with the salt "abcdefgh". *)
Example shown_example : shown [24; 171; 213; 42; 244; 63; 16; 154; 90; 125; 241; 82; 82; 176; 187; 130] (lit "G//4keteveJp0qb8z2DxG/").
Proof.
  assert (E : encode [24; 171; 213; 42; 244; 63; 16; 154; 90; 125; 241; 82; 82; 176; 187; 130] = lit "G//4keteveJp0qb8z2DxG/") by (vm_compute; reflexivity). rewrite <- E. apply encode_shown. repeat (apply Forall_cons; [unfold octet; lia|]). apply Forall_nil.
Qed.

Print Assumptions hash_is_md5crypt.
Print Assumptions hash_verifies.
Print Assumptions hash_form.
Print Assumptions same_hash_same_digest.
Print Assumptions encoding_loses_nothing.
Print Assumptions stored_hash_accepted.
Print Assumptions accepted_iff_digests_agree.
