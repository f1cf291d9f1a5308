(** C62: pam_succeed_if succeeds exactly when all its conditions hold. *)
From Coq Require Import String Ascii List Arith ZArith Bool Lia.
From Verif Require Import Base Num_Model Str_Model Str_Facts Opt_Model Opt_Facts Succeedif_Model.
Import ListNotations.
Local Open Scope Z_scope.

(** ** The spec *)

(** Two words that differ in case only. *)
Definition same (a b : cstr) : Prop := map tolower a = map tolower b.

(** A number without sign as in C: decimal, octal after 0, hexadecimal after 0x. *)
Inductive natural : cstr -> Z -> Prop :=
| nat_dec : forall ds v, based 10 ds v -> hd NUL ds <> "0"%char -> natural ds v
| nat_oct : forall ds v, based 8 ds v -> hd NUL ds = "0"%char -> natural ds v
| nat_hex : forall x ds v, tolower x = "x"%char -> based 16 ds v -> natural ("0"%char :: x :: ds) v.
(** A number after white space and perhaps a sign. *)
Inductive numeral : cstr -> Z -> Prop :=
| num_plain : forall sp body v, forallb isspace sp = true -> natural body v -> numeral (sp ++ body) v
| num_plus : forall sp body v, forallb isspace sp = true -> natural body v -> numeral (sp ++ "+"%char :: body) v
| num_minus : forall sp body v, forallb isspace sp = true -> natural body v -> numeral (sp ++ "-"%char :: body) (- v).
(** A number that the module can compare. *)
Definition in_range (s : cstr) (v : Z) : Prop := numeral s v /\ LONG_MIN <= v <= LONG_MAX.

(** [v] is an item of the list [l], whose items are separated by colons. *)
Definition item_of (l v : cstr) : Prop :=
  exists a b, l = (a ++ v ++ b)%list /\ (a = [] \/ last a NUL = ":"%char) /\ (b = [] \/ exists b', b = ":"%char :: b').

(** The text an attribute stands for. *)
Inductive attribute (E : env) (user : cstr) (info : option pw) : cstr -> cstr -> Prop :=
| at_user : forall a, same a (lit "user") \/ same a (lit "login") \/ same a (lit "name") -> attribute E user info a user
| at_uid : forall a p, same a (lit "uid") -> info = Some p -> attribute E user info a (decimal (pw_uid p))
| at_gid : forall a p, same a (lit "gid") -> info = Some p -> attribute E user info a (decimal (pw_gid p))
| at_shell : forall a p, same a (lit "shell") -> info = Some p -> attribute E user info a (pw_shell p)
| at_home : forall a p, same a (lit "home") \/ same a (lit "dir") \/ same a (lit "homedir") -> info = Some p -> attribute E user info a (pw_dir p)
| at_service : forall a v, same a (lit "service") -> e_service E = Some v \/ e_service E = None /\ v = [] -> attribute E user info a v
| at_ruser : forall a v, same a (lit "ruser") -> e_ruser E = Some v \/ e_ruser E = None /\ v = [] -> attribute E user info a v
| at_rhost : forall a v, same a (lit "rhost") -> e_rhost E = Some v \/ e_rhost E = None /\ v = [] -> attribute E user info a v
| at_tty : forall a v, same a (lit "tty") -> e_tty E = Some v \/ e_tty E = None /\ v = [] -> attribute E user info a v.

(** Both are numbers and [R] holds of them. *)
Definition numbers (R : Z -> Z -> Prop) (v w : cstr) : Prop := exists l r, in_range v l /\ in_range w r /\ R l r.
(** The relation that an operator states between the attribute's text and the value. *)
Inductive relation (E : env) (user : cstr) : cstr -> cstr -> cstr -> Prop :=
| r_lt : forall q v w, same q (lit "<") \/ same q (lit "lt") -> numbers Z.lt v w -> relation E user q v w
| r_le : forall q v w, same q (lit "<=") \/ same q (lit "le") -> numbers Z.le v w -> relation E user q v w
| r_gt : forall q v w, same q (lit ">") \/ same q (lit "gt") -> numbers Z.gt v w -> relation E user q v w
| r_ge : forall q v w, same q (lit ">=") \/ same q (lit "ge") -> numbers Z.ge v w -> relation E user q v w
| r_eqn : forall q v w, same q (lit "eq") -> numbers eq v w -> relation E user q v w
| r_nen : forall q v w, same q (lit "ne") -> numbers (fun a b => a <> b) v w -> relation E user q v w
| r_eqs : forall q v, same q (lit "=") -> relation E user q v v
| r_nes : forall q v w, same q (lit "!=") -> v <> w -> relation E user q v w
| r_glob : forall q v w, same q (lit "=~") \/ same q (lit "glob") -> e_fnmatch E w v = true -> relation E user q v w
| r_noglob : forall q v w, same q (lit "!~") \/ same q (lit "noglob") -> e_fnmatch E w v = false -> relation E user q v w
| r_in : forall q v w, same q (lit "in") -> item_of w v -> relation E user q v w
| r_notin : forall q v w, same q (lit "notin") -> ~ item_of w v -> relation E user q v w
| r_ingroup : forall q v w gs, same q (lit "ingroup") -> e_nomem E w = false -> words (lit ":") w gs -> (exists g, In g gs /\ e_ingroup E user g = true) -> relation E user q v w
| r_notingroup : forall q v w gs, same q (lit "notingroup") -> e_nomem E w = false -> words (lit ":") w gs -> (forall g, In g gs -> e_ingroup E user g = false) -> relation E user q v w
| r_innetgr : forall q v w, same q (lit "innetgr") -> e_innetgr E w (e_rhost E) user = 1 -> relation E user q v w
| r_notinnetgr : forall q v w, same q (lit "notinnetgr") -> e_innetgr E w (e_rhost E) user = 0 -> relation E user q v w.

(** A condition: attribute, operator, value. *)
Definition cond := (cstr * cstr * cstr)%type.
(** It holds. *)
Definition holds (E : env) (user : cstr) (info : option pw) (c : cond) : Prop :=
  let '(a, q, w) := c in exists v, attribute E user info a v /\ relation E user q v w.
(** The test for membership in a list of items is made with a text without colon. *)
Definition plain (E : env) (user : cstr) (info : option pw) (c : cond) : Prop :=
  let '(a, q, w) := c in same q (lit "in") \/ same q (lit "notin") -> forall v, attribute E user info a v -> ~ In ":"%char v.
(** The words of conditions. *)
Definition words_of (cs : list cond) : list cstr := flat_map (fun c => let '(a, q, w) := c in [a; q; w]) cs.
(** Words that are options and no part of conditions. *)
Definition option_word (a : cstr) : Prop := In a [lit "debug"; lit "use_uid"; lit "quiet"; lit "quiet_fail"; lit "quiet_success"; lit "audit"].
(** The rest of the words. *)
Inductive other_words : list cstr -> list cstr -> Prop :=
| ow_nil : other_words [] []
| ow_option : forall a args ws, option_word a -> other_words args ws -> other_words (a :: args) ws
| ow_word : forall a args ws, ~ option_word a -> other_words args ws -> other_words (a :: args) (a :: ws).
(** Whose data are looked at. *)
Definition examined (E : env) (args : list cstr) (user : cstr) (info : option pw) : Prop :=
  (In (lit "use_uid") args /\ exists p, e_self E = Some p /\ user = pw_name p /\ info = Some p) \/
  (~ In (lit "use_uid") args /\ e_get_user E = (PAM_SUCCESS, user) /\ info = e_getpwnam E user).

(** ** Numbers *)

Definition nat_part (s1 : cstr) : Z * nat * cstr :=
  match s1 with
  | z :: x :: d :: _ =>
      if Ascii.eqb z "0"%char && Ascii.eqb (tolower x) "x"%char && (hex_val d <? 16) then digits_in 16 (skipn 2 s1) 0 0
      else if Ascii.eqb z "0"%char then digits_in 8 s1 0 0 else digits_in 10 s1 0 0
  | z :: _ => if Ascii.eqb z "0"%char then digits_in 8 s1 0 0 else digits_in 10 s1 0 0
  | [] => (0, O, [])
  end.

Lemma x_not_octal : forall x, tolower x = "x"%char -> ~ hex_val x < 16.
Proof.
  intros x H. assert (X : x = "x"%char \/ x = "X"%char).
  { unfold tolower in H. destruct (isupper x) eqn:U.
    - right. rewrite <- (ascii_nat_embedding x). change "X"%char with (ascii_of_nat 88). f_equal.
      assert (O : nat_of_ascii (chr (ord x + 32)) = 120%nat) by (rewrite H; reflexivity). unfold chr in O. unfold isupper, ord in *.
      apply andb_true_iff in U. destruct U as [U1 U2]. apply Nat.leb_le in U1, U2. rewrite nat_ascii_embedding in O by lia. lia.
    - left. exact H. }
  destruct X as [-> | ->]; vm_compute; congruence.
Qed.

Lemma nat_part_spec : forall s v n, (nat_part s = (v, n, []) /\ n <> O) <-> (natural s v /\ exists k, n = S k /\ nat_part s = (v, n, [])).
Proof.
  intros s v n. split.
  - intros (H & N). split; [|destruct n as [|k]; [congruence|exists k; auto]].
    assert (DEC : forall z t, s = z :: t -> z <> "0"%char -> digits_in 10 s 0 0 = (v, n, []) -> natural s v).
    { intros z t -> Z0 D. apply all_digits_end in D. destruct D as (A & V & _). apply nat_dec; [|exact Z0]. split; [discriminate|]. auto. }
    assert (OCT : forall z t, s = z :: t -> z = "0"%char -> digits_in 8 s 0 0 = (v, n, []) -> natural s v).
    { intros z t -> Z0 D. apply all_digits_end in D. destruct D as (A & V & _). apply nat_oct; [|exact Z0]. split; [discriminate|]. auto. }
    unfold nat_part in H. destruct s as [|z [|x [|d t]]].
    + injection H as _ <-. congruence.
    + destruct (Ascii.eqb_spec z "0"%char); [eapply OCT|eapply DEC]; eauto.
    + destruct (Ascii.eqb_spec z "0"%char); [eapply OCT|eapply DEC]; eauto.
    + destruct (Ascii.eqb_spec z "0"%char) as [Z0|Z0]; cbn [andb] in H; [|eapply DEC; eauto].
      destruct (Ascii.eqb_spec (tolower x) "x"%char) as [X|X]; cbn [andb] in H; [|eapply OCT; eauto].
      destruct (hex_val d <? 16); [|eapply OCT; eauto]. cbn [skipn] in H. apply all_digits_end in H. destruct H as (A & V & _). subst z.
      apply nat_hex; [exact X|]. split; [discriminate|]. auto.
  - intros (_ & k & -> & H). split; [exact H|discriminate].
Qed.

Lemma natural_part : forall s v, natural s v -> exists k, nat_part s = (v, S k, []).
Proof.
  intros s v H. destruct H as [ds v (N & A & ->) Z0|ds v (N & A & ->) Z0|x ds v X (N & A & ->)].
  - destruct ds as [|z t]; [congruence|]. cbn [hd] in Z0.
    assert (D : digits_in 10 (z :: t) 0 0 = (fold_left (fun a c => a * 10 + hex_val c) (z :: t) 0, S (length t), [])) by (rewrite digits_in_all by exact A; reflexivity).
    exists (length t). unfold nat_part. destruct (Ascii.eqb_spec z "0"%char) as [E|_]; [contradiction|]. cbn [andb].
    destruct t as [|x [|d t]]; exact D.
  - destruct ds as [|z t]; [congruence|]. cbn [hd] in Z0. subst z.
    assert (D : digits_in 8 ("0"%char :: t) 0 0 = (fold_left (fun a c => a * 8 + hex_val c) ("0"%char :: t) 0, S (length t), [])) by (rewrite digits_in_all by exact A; reflexivity).
    exists (length t). unfold nat_part. destruct t as [|x [|d t]]; cbn [Ascii.eqb Bool.eqb andb]; try exact D.
    destruct (Ascii.eqb_spec (tolower x) "x"%char) as [X|_]; [|exact D]. exfalso. apply (x_not_octal x X). specialize (A x (or_intror (or_introl eq_refl))). lia.
  - destruct ds as [|d t]; [congruence|]. exists (length t). unfold nat_part. rewrite X, Ascii.eqb_refl. change (Ascii.eqb "0"%char "0"%char) with true. cbn [andb].
    assert (L : hex_val d < 16) by (apply A; left; reflexivity). apply Z.ltb_lt in L. rewrite L. cbn [skipn]. rewrite digits_in_all by exact A. reflexivity.
Qed.

Lemma natural_head : forall s v, natural s v -> exists c t, s = c :: t /\ isspace c = false /\ c <> "+"%char /\ c <> "-"%char.
Proof.
  assert (Q : forall c, hex_val c < 16 -> isspace c = false /\ c <> "+"%char /\ c <> "-"%char).
  { intros c L. split; [|split; intros ->; vm_compute in L; discriminate].
    destruct (isspace c) eqn:Sp; [|reflexivity]. exfalso.
    assert (F : forallb (fun n => implb (isspace (ascii_of_nat n)) (16 <=? hex_val (ascii_of_nat n))) (seq 0 256) = true) by (vm_compute; reflexivity).
    rewrite forallb_forall in F. specialize (F (nat_of_ascii c)). rewrite ascii_nat_embedding, Sp in F. cbn [implb] in F.
    assert (I : In (nat_of_ascii c) (seq 0 256)) by (apply in_seq; pose proof (nat_ascii_bounded c); lia). specialize (F I). apply Z.leb_le in F. lia. }
  intros s v H. destruct H as [ds v (N & A & _) _|ds v (N & A & _) _|x ds v X _].
  - destruct ds as [|c t]; [congruence|]. exists c, t. split; [reflexivity|]. apply Q. specialize (A c (or_introl eq_refl)). lia.
  - destruct ds as [|c t]; [congruence|]. exists c, t. split; [reflexivity|]. apply Q. specialize (A c (or_introl eq_refl)). lia.
  - exists "0"%char, (x :: ds). split; [reflexivity|]. apply Q. vm_compute. reflexivity.
Qed.

Lemma strtoll0_part : forall s, strtoll0 s = let '(neg, s1) := sign (skip_spaces s) in let '(v, n, r) := nat_part s1 in if Nat.eqb n 0 then None else Some (if neg then - v else v, r).
Proof. intro s. reflexivity. Qed.

(** Reading a whole word as a number. *)
Lemma strtoll0_whole : forall s v, strtoll0 s = Some (v, []) <-> numeral s v.
Proof.
  intros s v. rewrite strtoll0_part. split.
  - destruct (skip_spaces_split s) as (sp & Es & A). destruct (sign (skip_spaces s)) as [neg s1] eqn:SG. destruct (nat_part s1) as [[w n] r] eqn:NP.
    destruct (Nat.eqb_spec n 0) as [N|N]; [discriminate|]. intro H. assert (H1 : (if neg then - w else w) = v) by congruence. assert (H2 : r = []) by congruence. clear H. subst r.
    assert (NA : natural s1 w) by (apply (nat_part_spec s1 w n); auto). rewrite Es. unfold sign in SG. destruct (skip_spaces s) as [|c t] eqn:K.
    + injection SG as <- <-. subst v. apply num_plain; assumption.
    + destruct (Ascii.eqb_spec c "-"%char) as [->|_]; [injection SG as <- <-; subst v; apply num_minus; assumption|].
      destruct (Ascii.eqb_spec c "+"%char) as [->|_]; [injection SG as <- <-; subst v; apply num_plus; assumption|].
      injection SG as <- <-. subst v. apply num_plain; assumption.
  - intros [sp body w A NA|sp body w A NA|sp body w A NA]; destruct (natural_part body w NA) as (k & NP).
    + destruct (natural_head body w NA) as (c & t & -> & C1 & C2 & C3). rewrite skip_spaces_app by assumption. unfold sign.
      destruct (Ascii.eqb_spec c "-"%char); [contradiction|]. destruct (Ascii.eqb_spec c "+"%char); [contradiction|]. rewrite NP. reflexivity.
    + rewrite skip_spaces_app by (assumption || reflexivity). unfold sign. change (Ascii.eqb "+"%char "-"%char) with false. change (Ascii.eqb "+"%char "+"%char) with true. cbv iota. rewrite NP. reflexivity.
    + rewrite skip_spaces_app by (assumption || reflexivity). unfold sign. change (Ascii.eqb "-"%char "-"%char) with true. cbv iota. rewrite NP. reflexivity.
Qed.

Lemma number_iff : forall s v, number s = Some v <-> in_range s v.
Proof.
  intros s v. unfold number, in_range. split.
  - destruct (strtoll0 s) as [[w [|c r]]|] eqn:S0; try discriminate. destruct ((LONG_MIN <=? w) && (w <=? LONG_MAX)) eqn:B; [|discriminate].
    injection 1 as <-. apply andb_true_iff in B. destruct B as [B1 B2]. apply Z.leb_le in B1, B2. split; [apply strtoll0_whole; exact S0|lia].
  - intros (N & B). apply strtoll0_whole in N. rewrite N. replace ((LONG_MIN <=? v) && (v <=? LONG_MAX)) with true; [reflexivity|].
    symmetry. apply andb_true_iff. split; apply Z.leb_le; lia.
Qed.

(** A user's or group's number stands for itself. *)
Lemma decimal_numeral : forall n, 0 <= n <= LONG_MAX -> in_range (decimal n) n.
Proof.
  intros n H. split; [|split; [unfold LONG_MIN; lia|lia]]. destruct (decimal_value n ltac:(lia)) as (D & V & N).
  change (decimal n) with ([] ++ decimal n)%list. apply num_plain; [reflexivity|].
  assert (HV : forall c, In c (decimal n) -> hex_val c = digit_val c /\ 0 <= digit_val c < 10).
  { intros c I. rewrite forallb_forall in D. specialize (D c I). unfold hex_val. rewrite D. split; [reflexivity|].
    unfold isdigit, digit_val in *. apply andb_true_iff in D. destruct D as [A B]. apply Nat.leb_le in A, B. lia. }
  assert (FV : forall l acc, (forall c, In c l -> hex_val c = digit_val c) -> fold_left (fun a c => a * 10 + hex_val c) l acc = fold_left (fun a c => a * 10 + digit_val c) l acc).
  { induction l as [|c l IH]; intros acc A; [reflexivity|]. cbn [fold_left]. rewrite (A c) by (left; reflexivity). apply IH. intros x I. apply A. right. exact I. }
  destruct (Z.eq_dec n 0) as [->|NZ].
  - change (decimal 0) with (lit "0"). apply nat_oct; [|reflexivity]. split; [discriminate|]. split; [|reflexivity]. intros c [<-|[]]. vm_compute. reflexivity.
  - apply nat_dec.
    + split; [exact N|]. split; [intros c I; destruct (HV c I); lia|]. rewrite FV by (intros c I; apply HV; exact I). symmetry. exact V.
    + assert (DH : forall fuel m acc, 0 < m -> (0 < fuel)%nat -> m < 10 ^ Z.of_nat fuel -> hd NUL (dec_loop fuel m acc) <> "0"%char).
      { induction fuel as [|fuel IH]; intros m acc P F B; [lia|]. cbn [dec_loop]. destruct (Z.eqb_spec (m / 10) 0) as [Q|Q].
        - cbn [hd]. intro X. assert (R : 0 <= m mod 10 < 10) by (apply Z.mod_pos_bound; lia). destruct (digit_chr _ R) as (_ & DV). rewrite X in DV.
          change (digit_val "0"%char) with 0 in DV. pose proof (Z.div_mod m 10 ltac:(lia)). lia.
        - assert (P2 : 0 < m / 10). { assert (0 <= m / 10) by (apply Z.div_pos; lia). lia. }
          assert (B2 : m / 10 < 10 ^ Z.of_nat fuel). { apply Z.div_lt_upper_bound; [lia|]. rewrite Nat2Z.inj_succ, Z.pow_succ_r in B by lia. exact B. }
          apply IH; [exact P2| |exact B2]. destruct fuel; [cbn in B2; lia|lia]. }
      unfold decimal. apply DH; [lia|lia|]. pose proof (Z.log2_spec n ltac:(lia)) as [_ L]. pose proof (Z.log2_nonneg n).
      rewrite Nat2Z.inj_succ, Z2Nat.id by lia. eapply Z.lt_le_trans; [exact L|]. apply Z.pow_le_mono_l. lia.
Qed.

(** ** Lists *)

(** An item that starts after [u], a text without a boundary in its second part, starts after the next colon. *)
Lemma later_item : forall (u m : cstr) t a w, (u ++ m ++ t)%list = (a ++ w)%list -> ~ In ":"%char m -> (length u < length a)%nat -> last a NUL = ":"%char ->
  exists a', a = (u ++ m ++ a')%list /\ t = (a' ++ w)%list /\ a' <> [].
Proof.
  intros u m t a w E NI L LA.
  assert (Q : (length u + length m < length a)%nat).
  { destruct (le_lt_dec (length a) (length u + length m)) as [B|B]; [|exact B]. exfalso.
    assert (P : exists m', a = (u ++ m')%list /\ m' <> [] /\ exists m'', m = (m' ++ m'')%list).
    { exists (firstn (length a - length u) m).
      assert (A : a = firstn (length a) (u ++ m ++ t)).
      { rewrite E, firstn_app, firstn_all, Nat.sub_diag, firstn_O, app_nil_r. reflexivity. }
      split.
      - rewrite A at 1. rewrite firstn_app. rewrite firstn_all2 by lia. f_equal. rewrite firstn_app.
        replace (length a - length u - length m)%nat with O by lia. rewrite firstn_O, app_nil_r. reflexivity.
      - split; [|exists (skipn (length a - length u) m); rewrite firstn_skipn; reflexivity].
        intro X. apply (f_equal (@length ascii)) in X. rewrite firstn_length in X. cbn in X. lia. }
    destruct P as (m' & -> & M & m'' & ->). rewrite last_app_ne in LA by exact M. apply NI. apply in_or_app. left. rewrite <- LA. apply last_in. exact M. }
  exists (skipn (length u + length m) a).
  assert (A : (u ++ m)%list = firstn (length u + length m) a).
  { rewrite app_assoc in E. apply (f_equal (firstn (length u + length m))) in E. rewrite firstn_app in E. rewrite app_length in E.
    replace (length u + length m - (length u + length m))%nat with O in E by lia. rewrite firstn_O, app_nil_r in E. rewrite firstn_all2 in E by (rewrite app_length; lia).
    rewrite E, firstn_app. replace (length u + length m - length a)%nat with O by lia. rewrite firstn_O, app_nil_r. reflexivity. }
  split; [rewrite app_assoc, A, firstn_skipn; reflexivity|]. split.
  - apply (app_inv_head (u ++ m)). rewrite <- app_assoc, E, app_assoc. f_equal. rewrite A. symmetry. apply firstn_skipn.
  - intro X. apply (f_equal (@length ascii)) in X. rewrite skipn_length in X. cbn in X. lia.
Qed.

Lemma inlist_fuel : forall fuel left right, (length right < fuel)%nat -> ~ In ":"%char left ->
  (inlist_loop fuel left right = true <-> item_of right left).
Proof.
  induction fuel as [|fuel IH]; intros left right L NI; [lia|]. cbn [inlist_loop].
  destruct (strstr left right) as [[a p]|] eqn:SS.
  2: { split; [discriminate|]. intros (x & y & E & _). exfalso. apply (strstr_none _ _ x y SS). exact E. }
  apply strstr_some in SS. destruct SS as (R & (rest & ->) & FIRST).
  set (start := match a with [] => true | _ => Ascii.eqb (last a NUL) ":"%char end).
  assert (ST : start = true <-> (a = [] \/ last a NUL = ":"%char)).
  { unfold start. destruct a as [|x a']; [split; auto|]. rewrite Ascii.eqb_eq. split; [auto|]. intros [X|X]; [discriminate|exact X]. }
  clearbody start.
  assert (SK : skipn (length left) (left ++ rest) = rest) by (rewrite skipn_app, skipn_all, Nat.sub_diag; reflexivity).
  rewrite SK. clear SK.
  (* the boundary test *)
  assert (BT : forall b : cstr, match b with [] => true | c :: _ => Ascii.eqb c ":"%char end = true <-> (b = [] \/ exists b', b = ":"%char :: b')).
  { intros [|c b]; [split; auto|]. rewrite Ascii.eqb_eq. split; [intros ->; right; exists b; reflexivity|]. intros [X|(b' & X)]; congruence. }
  (* where an item can be *)
  assert (NEXT : forall q m t, (q = rest /\ start = true \/ q = (left ++ rest)%list) -> q = (m ++ ":"%char :: t)%list -> ~ In ":"%char m ->
    (start && match (if start then rest else (left ++ rest)%list) with [] => true | c :: _ => Ascii.eqb c ":"%char end = false) ->
    (item_of t left <-> item_of right left)).
  { intros q m t Q M NM NB. split.
    - intros (x & y & -> & X & Y). assert (Z1 : exists u, right = (u ++ ":"%char :: (x ++ left ++ y))%list).
      { destruct Q as [(Q & _)|Q].
        - exists (a ++ left ++ m)%list. rewrite R, <- Q, M, <- !app_assoc. reflexivity.
        - exists (a ++ m)%list. rewrite R, <- Q, M, <- app_assoc. reflexivity. }
      destruct Z1 as (u & Z1). exists (u ++ ":"%char :: x)%list, y. split; [rewrite Z1, <- app_assoc; reflexivity|]. split; [|exact Y]. right.
      rewrite last_app_ne by discriminate. destruct X as [->|X]; [reflexivity|]. destruct x as [|c x]; [reflexivity|exact X].
    - intros (x & y & E & X & Y).
      (* all up to the colon that is found, without the colon, past a *)
      assert (MM : exists m', right = (a ++ m' ++ ":"%char :: t)%list /\ ~ In ":"%char m').
      { destruct Q as [(Q & _)|Q].
        - exists (left ++ m)%list. split; [rewrite R, <- Q, M, <- !app_assoc; reflexivity|]. intro I. apply in_app_or in I. destruct I; contradiction.
        - exists m. split; [rewrite R, <- Q, M; reflexivity|exact NM]. }
      destruct MM as (m' & E2 & NM'). pose proof (FIRST x y E) as LE.
      destruct (Nat.eq_dec (length a) (length x)) as [EQ|NE].
      + (* the place found is the item *) exfalso.
        assert (AX : a = x /\ rest = y).
        { rewrite R in E. assert (A1 : firstn (length a) (a ++ left ++ rest) = firstn (length a) (x ++ left ++ y)) by (rewrite E; reflexivity).
          rewrite !firstn_app, EQ, firstn_all, Nat.sub_diag, !firstn_O, !app_nil_r in A1. rewrite <- EQ, firstn_all in A1. subst x. split; [reflexivity|].
          apply app_inv_head in E. apply app_inv_head in E. exact E. }
        destruct AX as (-> & ->). apply ST in X. rewrite X in NB. cbn [andb] in NB. apply BT in Y. congruence.
      + assert (X' : last x NUL = ":"%char) by (destruct X as [->|X]; [cbn in LE; destruct a; [cbn in NE; lia|cbn in LE; lia]|exact X]).
        destruct (later_item a m' (":"%char :: t) x (left ++ y)) as (x' & Ex & Et & Nx); [rewrite <- E2; exact E|exact NM'|lia|exact X'|].
        destruct x' as [|c x']; [congruence|]. cbn [app] in Et. injection Et as <- Et.
        exists x', y. split; [exact Et|]. split; [|exact Y]. destruct x' as [|d x']; [left; reflexivity|right].
        rewrite Ex in X'. rewrite app_assoc, last_app_ne in X' by discriminate. exact X'. }
  assert (NONE : ~ In ":"%char rest -> (start && match (if start then rest else (left ++ rest)%list) with [] => true | c :: _ => Ascii.eqb c ":"%char end = false) -> ~ item_of right left).
  { intros NR NB (x & y & E & X & Y). pose proof (FIRST x y E) as LE. destruct (Nat.eq_dec (length a) (length x)) as [EQ|NE].
    - assert (AX : a = x /\ rest = y).
      { rewrite R in E. assert (A1 : firstn (length a) (a ++ left ++ rest) = firstn (length a) (x ++ left ++ y)) by (rewrite E; reflexivity).
        rewrite !firstn_app, EQ, firstn_all, Nat.sub_diag, !firstn_O, !app_nil_r in A1. rewrite <- EQ, firstn_all in A1. subst x. split; [reflexivity|].
        apply app_inv_head in E. apply app_inv_head in E. exact E. }
      destruct AX as (-> & ->). apply ST in X. rewrite X in NB. cbn [andb] in NB. apply BT in Y. congruence.
    - assert (X' : last x NUL = ":"%char) by (destruct X as [->|X]; [cbn in LE; destruct a; [cbn in NE; lia|cbn in LE; lia]|exact X]).
      destruct (later_item a (left ++ rest) [] x (left ++ y)) as (x' & _ & Et & Nx); [rewrite app_nil_r, <- R; exact E| |lia|exact X'|].
      + intro I. apply in_app_or in I. destruct I; contradiction.
      + destruct x'; [congruence|discriminate Et]. }
  destruct (start && match (if start then rest else (left ++ rest)%list) with [] => true | c :: _ => Ascii.eqb c ":"%char end) eqn:B.
  - split; [|reflexivity]. intros _. apply andb_true_iff in B. destruct B as [B1 B2]. rewrite B1 in B2. exists a, rest. split; [exact R|]. split; [apply ST; exact B1|apply BT; exact B2].
  - assert (LEN : forall q m t, (q = rest \/ q = (left ++ rest)%list) -> q = (m ++ ":"%char :: t)%list -> (length t < fuel)%nat).
    { intros q m t Q M. assert (length q <= length right)%nat by (rewrite R; destruct Q as [->| ->]; rewrite !app_length; lia).
      rewrite M, app_length in H. cbn [length] in H. lia. }
    destruct start.
    + destruct (strchr ":"%char rest) as [r|] eqn:SC.
      * apply strchr_some in SC. destruct SC as (m & t & M & -> & NM). cbn [tl]. rewrite IH; [|eapply LEN; [left; reflexivity|exact M]|exact NI].
        apply (NEXT rest m t); [left; auto|exact M|exact NM|reflexivity].
      * apply strchr_none in SC. split; [discriminate|]. intro X. exfalso. apply (NONE SC eq_refl X).
    + destruct (strchr ":"%char (left ++ rest)) as [r|] eqn:SC.
      * apply strchr_some in SC. destruct SC as (m & t & M & -> & NM). cbn [tl]. rewrite IH; [|eapply LEN; [right; reflexivity|exact M]|exact NI].
        apply (NEXT (left ++ rest)%list m t); [right; reflexivity|exact M|exact NM|reflexivity].
      * apply strchr_none in SC. split; [discriminate|]. intro X. exfalso. apply NONE; [|reflexivity|exact X]. intro I. apply SC. apply in_or_app. right. exact I.
Qed.

Lemma inlist_iff : forall left right, ~ In ":"%char left -> (inlist left right = true <-> item_of right left).
Proof. intros. apply inlist_fuel; [lia|assumption]. Qed.

(** ** One condition *)

Lemma caseeq_cong : forall a b y, same a b -> caseeq a y = caseeq b y.
Proof. intros a b y H. unfold caseeq. rewrite H. reflexivity. Qed.
Lemma caseeq_same : forall a b, caseeq a b = true <-> same a b.
Proof. intros a b. apply caseeq_iff. Qed.

Ltac case_lits := repeat match goal with |- context [caseeq (lit ?x) (lit ?y)] => let b := eval vm_compute in (caseeq (lit x) (lit y)) in change (caseeq (lit x) (lit y)) with b end; cbn [orb andb negb].

Lemma item_iff : forall i v, (i = Some v \/ i = None /\ v = []) <-> v = item i.
Proof. intros [s|] v; cbn [item]; split; intro H; try (destruct H as [H|(H & _)]; congruence); try (left; congruence); try (destruct H as [H|(_ & H)]; congruence). right. auto. Qed.

Lemma resolve_iff : forall E user info a v, resolve E a user info = inl v <-> attribute E user info a v.
Proof.
  intros E user info a v. split.
  - unfold resolve, needs_pw. intro H.
    repeat match type of H with context [caseeq a ?y] => let C := fresh "C" in destruct (caseeq a y) eqn:C; [apply caseeq_same in C|]; cbn [orb andb] in H end;
    destruct info as [p|]; cbn [andb] in H; try discriminate H; try (injection H as <-);
    first [ apply at_user; tauto | apply at_uid; [assumption|reflexivity] | apply at_gid; [assumption|reflexivity] | apply at_shell; [assumption|reflexivity]
          | apply at_home; [tauto|reflexivity] | apply at_service; [assumption|apply item_iff; reflexivity] | apply at_ruser; [assumption|apply item_iff; reflexivity]
          | apply at_rhost; [assumption|apply item_iff; reflexivity] | apply at_tty; [assumption|apply item_iff; reflexivity] ].
  - intro H. unfold resolve, needs_pw. destruct H as [a [H|[H|H]]|a p H ->|a p H ->|a p H ->|a p [H|[H|H]] ->|a v H I|a v H I|a v H I|a v H I];
      rewrite !(caseeq_cong _ _ _ H); case_lits; try reflexivity; apply item_iff in I; rewrite I; destruct info; reflexivity.
Qed.

Lemma num_iff : forall v w cmp (R : Z -> Z -> Prop), (forall a b, cmp a b = true <-> R a b) -> (evaluate_num v w cmp = PAM_SUCCESS <-> numbers R v w).
Proof.
  intros v w cmp R C. unfold evaluate_num, numbers. split.
  - destruct (number v) as [l|] eqn:L; [|discriminate]. destruct (number w) as [r|] eqn:W; [|discriminate]. destruct (cmp l r) eqn:X; [|discriminate].
    intros _. exists l, r. rewrite <- !number_iff. split; [exact L|]. split; [exact W|]. apply C. exact X.
  - intros (l & r & L & W & X). apply number_iff in L, W. rewrite L, W. apply C in X. rewrite X. reflexivity.
Qed.

Lemma verdict_iff : forall b, verdict b = PAM_SUCCESS <-> b = true.
Proof. intros []; split; intro H; try reflexivity; discriminate H. Qed.

Lemma c_lt_iff : forall a b, c_lt a b = true <-> a < b.
Proof. intros. apply Z.ltb_lt. Qed.
Lemma c_le_iff : forall a b, c_le a b = true <-> a <= b.
Proof. intros. unfold c_le, c_lt, c_eq. rewrite orb_true_iff, Z.ltb_lt, Z.eqb_eq. lia. Qed.
Lemma c_gt_iff : forall a b, c_gt a b = true <-> a > b.
Proof. intros. unfold c_gt. rewrite Z.ltb_lt. lia. Qed.
Lemma c_ge_iff : forall a b, c_ge a b = true <-> a >= b.
Proof. intros. unfold c_ge, c_gt, c_eq. rewrite orb_true_iff, Z.ltb_lt, Z.eqb_eq. lia. Qed.
Lemma c_ne_iff : forall a b, c_ne a b = true <-> a <> b.
Proof. intros. unfold c_ne. rewrite negb_true_iff, Z.eqb_neq. reflexivity. Qed.

Lemma some_group_iff : forall E user w gs, words (lit ":") w gs -> (some_group E user w = true <-> exists g, In g gs /\ e_ingroup E user g = true).
Proof. intros E user w gs W. unfold some_group. rewrite (words_strtoks _ _ _ W). apply existsb_exists. Qed.

Lemma compare_iff : forall E q v w user, (same q (lit "in") \/ same q (lit "notin") -> ~ In ":"%char v) ->
  (compare E v q w user = PAM_SUCCESS <-> relation E user q v w).
Proof.
  intros E q v w user PL. split.
  - unfold compare. intro H.
    destruct (caseeq q (lit "<")) eqn:C1; [apply caseeq_same in C1; apply r_lt; [auto|]; apply (num_iff _ _ _ _ c_lt_iff); exact H|].
    destruct (caseeq q (lit "lt")) eqn:C2; [apply caseeq_same in C2; apply r_lt; [auto|]; apply (num_iff _ _ _ _ c_lt_iff); exact H|]. cbn [orb] in H.
    destruct (caseeq q (lit "<=")) eqn:C3; [apply caseeq_same in C3; apply r_le; [auto|]; apply (num_iff _ _ _ _ c_le_iff); exact H|].
    destruct (caseeq q (lit "le")) eqn:C4; [apply caseeq_same in C4; apply r_le; [auto|]; apply (num_iff _ _ _ _ c_le_iff); exact H|]. cbn [orb] in H.
    destruct (caseeq q (lit ">")) eqn:C5; [apply caseeq_same in C5; apply r_gt; [auto|]; apply (num_iff _ _ _ _ c_gt_iff); exact H|].
    destruct (caseeq q (lit "gt")) eqn:C6; [apply caseeq_same in C6; apply r_gt; [auto|]; apply (num_iff _ _ _ _ c_gt_iff); exact H|]. cbn [orb] in H.
    destruct (caseeq q (lit ">=")) eqn:C7; [apply caseeq_same in C7; apply r_ge; [auto|]; apply (num_iff _ _ _ _ c_ge_iff); exact H|].
    destruct (caseeq q (lit "ge")) eqn:C8; [apply caseeq_same in C8; apply r_ge; [auto|]; apply (num_iff _ _ _ _ c_ge_iff); exact H|]. cbn [orb] in H.
    destruct (caseeq q (lit "eq")) eqn:C9; [apply caseeq_same in C9; apply r_eqn; [auto|]; apply (num_iff _ _ _ _ Z.eqb_eq); exact H|].
    destruct (caseeq q (lit "=")) eqn:C10; [apply caseeq_same in C10; apply verdict_iff, streq_eq in H; subst; apply r_eqs; assumption|].
    destruct (caseeq q (lit "ne")) eqn:C11; [apply caseeq_same in C11; apply r_nen; [auto|]; apply (num_iff _ _ _ _ c_ne_iff); exact H|].
    destruct (caseeq q (lit "!=")) eqn:C12; [apply caseeq_same in C12; apply verdict_iff, negb_true_iff in H; apply r_nes; [assumption|intros ->; rewrite streq_refl in H; discriminate]|].
    destruct (caseeq q (lit "=~")) eqn:C13; [apply caseeq_same in C13; apply verdict_iff in H; apply r_glob; auto|].
    destruct (caseeq q (lit "glob")) eqn:C14; [apply caseeq_same in C14; apply verdict_iff in H; apply r_glob; auto|]. cbn [orb] in H.
    destruct (caseeq q (lit "!~")) eqn:C15; [apply caseeq_same in C15; apply verdict_iff, negb_true_iff in H; apply r_noglob; auto|].
    destruct (caseeq q (lit "noglob")) eqn:C16; [apply caseeq_same in C16; apply verdict_iff, negb_true_iff in H; apply r_noglob; auto|]. cbn [orb] in H.
    destruct (caseeq q (lit "in")) eqn:C17; [apply caseeq_same in C17; apply verdict_iff in H; apply r_in; [auto|]; apply inlist_iff; [apply PL; auto|exact H]|].
    destruct (caseeq q (lit "notin")) eqn:C18.
    { apply caseeq_same in C18. apply verdict_iff, negb_true_iff in H. apply r_notin; [auto|]. intro X. apply inlist_iff in X; [congruence|]. apply PL; auto. }
    destruct (caseeq q (lit "ingroup")) eqn:C19.
    { apply caseeq_same in C19. destruct (e_nomem E w) eqn:NM; [discriminate|]. apply verdict_iff in H. pose proof (strtoks_words (lit ":") w) as W.
      eapply r_ingroup; eauto. apply (some_group_iff _ _ _ _ W). exact H. }
    destruct (caseeq q (lit "notingroup")) eqn:C20.
    { apply caseeq_same in C20. destruct (e_nomem E w) eqn:NM; [discriminate|]. apply verdict_iff, negb_true_iff in H. pose proof (strtoks_words (lit ":") w) as W.
      eapply r_notingroup; eauto. intros g I. destruct (e_ingroup E user g) eqn:G; [|reflexivity].
      assert (X : some_group E user w = true) by (apply (some_group_iff _ _ _ _ W); exists g; auto). congruence. }
    destruct (caseeq q (lit "innetgr")) eqn:C21; [apply caseeq_same in C21; apply verdict_iff, Z.eqb_eq in H; apply r_innetgr; assumption|].
    destruct (caseeq q (lit "notinnetgr")) eqn:C22; [apply caseeq_same in C22; apply verdict_iff, Z.eqb_eq in H; apply r_notinnetgr; assumption|].
    discriminate H.
  - intros H. revert PL. unfold compare.
    destruct H as [q v w [H|H] X|q v w [H|H] X|q v w [H|H] X|q v w [H|H] X|q v w H X|q v w H X|q v H|q v w H X|q v w [H|H] X|q v w [H|H] X|q v w H X|q v w H X|q v w gs H M W X|q v w gs H M W X|q v w H X|q v w H X];
      intro PL; rewrite !(caseeq_cong _ _ _ H); case_lits.
    1,2: apply (num_iff _ _ _ _ c_lt_iff); exact X.
    1,2: apply (num_iff _ _ _ _ c_le_iff); exact X.
    1,2: apply (num_iff _ _ _ _ c_gt_iff); exact X.
    1,2: apply (num_iff _ _ _ _ c_ge_iff); exact X.
    + apply (num_iff _ _ _ _ Z.eqb_eq); exact X.
    + apply (num_iff _ _ _ _ c_ne_iff); exact X.
    + apply verdict_iff. apply streq_refl.
    + apply verdict_iff, negb_true_iff. destruct (streq v w) eqn:Y; [apply streq_eq in Y; contradiction|reflexivity].
    + apply verdict_iff. exact X.
    + apply verdict_iff. exact X.
    + apply verdict_iff, negb_true_iff. exact X.
    + apply verdict_iff, negb_true_iff. exact X.
    + apply verdict_iff. apply inlist_iff; [apply PL; auto|exact X].
    + apply verdict_iff, negb_true_iff. destruct (inlist v w) eqn:Y; [|reflexivity]. exfalso. apply X. apply inlist_iff; [apply PL; auto|exact Y].
    + rewrite M. apply verdict_iff. apply (some_group_iff _ _ _ _ W). exact X.
    + rewrite M. apply verdict_iff, negb_true_iff. destruct (some_group E user w) eqn:Y; [|reflexivity]. apply (some_group_iff _ _ _ _ W) in Y.
      destruct Y as (g & I & G). rewrite (X g I) in G. discriminate.
    + apply verdict_iff, Z.eqb_eq. exact X.
    + apply verdict_iff, Z.eqb_eq. exact X.
Qed.

(** One condition: the code's answer is success exactly when the condition holds. *)
Theorem condition_holds : forall E user info a q w, plain E user info (a, q, w) ->
  (evaluate E user info a q w = PAM_SUCCESS <-> holds E user info (a, q, w)).
Proof.
  intros E user info a q w PL. unfold evaluate, holds. split.
  - destruct (resolve E a user info) as [v|e] eqn:R.
    + intro H. exists v. assert (A : attribute E user info a v) by (apply resolve_iff; exact R). split; [exact A|]. apply compare_iff; [|exact H]. intro X. apply (PL X v A).
    + intro H. subst e. exfalso. unfold resolve in R.
      repeat match type of R with context [if ?b then _ else _] => destruct b; try discriminate R end; destruct info; repeat match type of R with context [if ?b then _ else _] => destruct b; try discriminate R end; discriminate R.
  - intros (v & A & RL). pose proof A as A'. apply resolve_iff in A'. rewrite A'. apply compare_iff; [|exact RL]. intro X. apply (PL X v A).
Qed.

Example condition_example : forall E user, evaluate E user (Some (mkPw user 1000 100 (lit "/bin/sh") (lit "/"))) (lit "UID") (lit ">=") (lit "0x3E8") = PAM_SUCCESS.
Proof. intros. vm_compute. reflexivity. Qed.

(** The error codes: an unknown attribute, an unknown operator or a word that is no number is PAM_SERVICE_ERR, a user without an
    entry PAM_USER_UNKNOWN; a condition that does not hold is PAM_AUTH_ERR. *)
Theorem condition_codes : forall E user info a q w, In (evaluate E user info a q w) [PAM_SUCCESS; PAM_AUTH_ERR; PAM_SERVICE_ERR; PAM_USER_UNKNOWN; PAM_BUF_ERR].
Proof.
  intros E user info a q w. unfold evaluate. destruct (resolve E a user info) as [v|e] eqn:R.
  - unfold compare, verdict, evaluate_num. clear R.
    assert (V : forall cmp, In (match number v, number w with Some l, Some r => if (cmp l r : bool) then PAM_SUCCESS else PAM_AUTH_ERR | _, _ => PAM_SERVICE_ERR end) [PAM_SUCCESS; PAM_AUTH_ERR; PAM_SERVICE_ERR; PAM_USER_UNKNOWN; PAM_BUF_ERR]).
    { intro cmp. destruct (number v) as [l|]; [destruct (number w) as [r|]; [destruct (cmp l r)|]|]; [left; reflexivity|right; left; reflexivity|right; right; left; reflexivity..]. }
    assert (B : forall b : bool, In (if b then PAM_SUCCESS else PAM_AUTH_ERR) [PAM_SUCCESS; PAM_AUTH_ERR; PAM_SERVICE_ERR; PAM_USER_UNKNOWN; PAM_BUF_ERR]).
    { intros []; [left; reflexivity|right; left; reflexivity]. }
    assert (M : In PAM_BUF_ERR [PAM_SUCCESS; PAM_AUTH_ERR; PAM_SERVICE_ERR; PAM_USER_UNKNOWN; PAM_BUF_ERR]) by (right; right; right; right; left; reflexivity).
    assert (SE : In PAM_SERVICE_ERR [PAM_SUCCESS; PAM_AUTH_ERR; PAM_SERVICE_ERR; PAM_USER_UNKNOWN; PAM_BUF_ERR]) by (right; right; left; reflexivity).
    repeat match goal with |- context [if (caseeq q ?x) || (caseeq q ?y) then _ else _] => destruct (caseeq q x || caseeq q y) | |- context [if caseeq q ?x then _ else _] => destruct (caseeq q x) end;
      first [apply V|apply B|apply SE|destruct (e_nomem E w); [apply M|apply B]].
  - assert (X : e = PAM_USER_UNKNOWN \/ e = PAM_SERVICE_ERR).
    { unfold resolve in R. destruct info; repeat match type of R with context [if ?b then _ else _] => destruct b; try discriminate R end; inversion R; auto. }
    destruct X as [->| ->]; [right; right; right; left; reflexivity|right; right; left; reflexivity].
Qed.

(** An attribute that needs the user's entry, without one. *)
Theorem unknown_user_refused : forall E user a q w, (exists n, In n ["uid"; "gid"; "shell"; "home"; "dir"; "homedir"]%string /\ same a (lit n)) ->
  evaluate E user None a q w = PAM_USER_UNKNOWN.
Proof.
  intros E user a q w (n & I & H). unfold evaluate, resolve, needs_pw. rewrite !(caseeq_cong _ _ _ H).
  repeat (destruct I as [<-|I]; [case_lits; reflexivity|]). destruct I.
Qed.
Example unknown_user_example : same (lit "Uid") (lit "uid").
Proof. reflexivity. Qed.

(** ** All conditions *)

Lemma option_iff : forall a, is_option a = true <-> option_word a.
Proof.
  intro a. unfold is_option, option_word. rewrite !orb_true_iff, !streq_eq. cbn [In]. split; intro H; intuition congruence.
Qed.

Lemma walk_skip : forall E user info args ws, other_words args ws -> forall l q r, walk E user info l q r args = walk E user info l q r ws.
Proof.
  intros E user info args ws H. induction H as [|a args ws O H IH|a args ws O H IH]; intros l q r; [reflexivity|..].
  - cbn [walk]. apply option_iff in O. rewrite O. apply IH.
  - cbn [walk]. assert (X : is_option a = false) by (destruct (is_option a) eqn:X; [apply option_iff in X; contradiction|reflexivity]). rewrite X.
    destruct l as [l|]; [destruct q as [q|]|]; [|apply IH..]. destruct (evaluate E user info l q a =? PAM_SUCCESS); [apply IH|reflexivity].
Qed.

Lemma other_words_not : forall args ws, other_words args ws -> Forall (fun a => is_option a = false) ws.
Proof.
  intros args ws H. induction H as [|a args ws O H IH|a args ws O H IH]; [constructor|exact IH|]. constructor; [|exact IH].
  destruct (is_option a) eqn:X; [apply option_iff in X; contradiction|reflexivity].
Qed.

Lemma walk_cond : forall E user info a q w ws r, is_option a = false -> is_option q = false -> is_option w = false ->
  walk E user info None None r (a :: q :: w :: ws) = if evaluate E user info a q w =? PAM_SUCCESS then walk E user info None None PAM_SUCCESS ws else evaluate E user info a q w.
Proof.
  intros E user info a q w ws r A Q W. cbn [walk]. rewrite A. rewrite Q. rewrite W. destruct (Z.eqb_spec (evaluate E user info a q w) PAM_SUCCESS) as [X|X]; [rewrite X|]; reflexivity.
Qed.

Lemma words_three : forall ws : list cstr, (exists a q w r, ws = a :: q :: w :: r) \/ ws = [] \/ (exists a, ws = [a]) \/ exists a q, ws = [a; q].
Proof. intros [|a [|q [|w r]]]; eauto 10. Qed.

Lemma walk_success : forall n E user info ws, (length ws <= n)%nat -> Forall (fun a => is_option a = false) ws ->
  (walk E user info None None PAM_SUCCESS ws = PAM_SUCCESS <-> exists cs, ws = words_of cs /\ Forall (fun c => let '(a, q, w) := c in evaluate E user info a q w = PAM_SUCCESS) cs).
Proof.
  induction n as [|n IH]; intros E user info ws L F.
  - destruct ws; [|cbn in L; lia]. split; [|reflexivity]. intros _. exists []. split; [reflexivity|constructor].
  - destruct (words_three ws) as [(a & q & w & r & ->)|[->|[(a & ->)|(a & q & ->)]]].
    + inversion F as [|? ? A F1]. subst. inversion F1 as [|? ? Q F2]. subst. inversion F2 as [|? ? W F3]. subst. rewrite walk_cond by assumption.
      destruct (Z.eqb_spec (evaluate E user info a q w) PAM_SUCCESS) as [X|X].
      * rewrite IH; [|cbn in L; lia|exact F3]. split.
        -- intros (cs & -> & G). exists ((a, q, w) :: cs). split; [reflexivity|]. constructor; assumption.
        -- intros ([|[[a' q'] w'] cs] & E1 & G); [discriminate|]. cbn in E1. injection E1 as <- <- <- E1. inversion G. subst. exists cs. auto.
      * split; [contradiction|]. intros ([|[[a' q'] w'] cs] & E1 & G); [discriminate|]. cbn in E1. injection E1 as <- <- <- E1. inversion G. contradiction.
    + split; [|reflexivity]. intros _. exists []. split; [reflexivity|constructor].
    + inversion F as [|? ? A F1]. subst. cbn [walk]. rewrite A. split; [discriminate|]. intros ([|[[a' q'] w'] cs] & E1 & _); discriminate.
    + inversion F as [|? ? A F1]. subst. inversion F1 as [|? ? Q F2]. subst. cbn [walk]. rewrite A, Q. split; [discriminate|]. intros ([|[[a' q'] w'] cs] & E1 & _); discriminate.
Qed.

Lemma use_uid_iff : forall args, existsb (streq (lit "use_uid")) args = true <-> In (lit "use_uid") args.
Proof.
  intro args. rewrite existsb_exists. split.
  - intros (x & I & X). apply streq_eq in X. subst x. exact I.
  - intro I. exists (lit "use_uid"). split; [exact I|apply streq_refl].
Qed.

Lemma succeed_if_walk : forall E args user info, examined E args user info -> succeed_if E args = walk E user info None None PAM_SUCCESS args.
Proof.
  intros E args user info [(I & p & S1 & -> & ->)|(N & G & ->)]; unfold succeed_if.
  - apply use_uid_iff in I. rewrite I, S1. reflexivity.
  - assert (X : existsb (streq (lit "use_uid")) args = false) by (destruct (existsb (streq (lit "use_uid")) args) eqn:X; [apply use_uid_iff in X; contradiction|reflexivity]).
    rewrite X, G. reflexivity.
Qed.

(** The module succeeds exactly when there is a user to examine and the words, options aside, are conditions that all hold. *)
Theorem succeeds_iff_all_hold : forall E args ws, other_words args ws ->
  (forall user info a q w, examined E args user info -> In a ws -> In q ws -> In w ws -> plain E user info (a, q, w)) ->
  (succeed_if E args = PAM_SUCCESS <->
   exists user info, examined E args user info /\ exists cs, ws = words_of cs /\ Forall (holds E user info) cs).
Proof.
  intros E args ws O PL.
  assert (IN : forall cs c, ws = words_of cs -> In c cs -> let '(a, q, w) := c in In a ws /\ In q ws /\ In w ws).
  { intros cs [[a q] w] -> I. unfold words_of. repeat split; apply in_flat_map; exists (a, q, w); (split; [exact I|]); cbn; auto. }
  assert (EX : forall user info, examined E args user info -> (walk E user info None None PAM_SUCCESS args = PAM_SUCCESS <-> exists cs, ws = words_of cs /\ Forall (holds E user info) cs)).
  { intros user info EX. rewrite (walk_skip _ _ _ _ _ O), (walk_success (length ws)); [|lia|apply (other_words_not _ _ O)].
    split; intros (cs & W & F); exists cs; (split; [exact W|]); apply Forall_forall; intros [[a q] w] I; rewrite Forall_forall in F; specialize (F _ I); cbn in F;
      destruct (IN cs _ W I) as (I1 & I2 & I3); apply condition_holds; auto. }
  split.
  - intro H. unfold succeed_if in H. destruct (existsb (streq (lit "use_uid")) args) eqn:U.
    + apply use_uid_iff in U. destruct (e_self E) as [p|] eqn:SF; [|discriminate H]. exists (pw_name p), (Some p).
      assert (X : examined E args (pw_name p) (Some p)) by (left; split; [exact U|]; exists p; auto). split; [exact X|]. apply (EX _ _ X). exact H.
    + assert (N : ~ In (lit "use_uid") args) by (intro I; apply use_uid_iff in I; congruence).
      destruct (e_get_user E) as [r user] eqn:G. destruct (Z.eqb_spec r PAM_SUCCESS) as [->|R]; [|contradiction]. exists user, (e_getpwnam E user).
      assert (X : examined E args user (e_getpwnam E user)) by (right; auto). split; [exact X|]. apply (EX _ _ X). exact H.
  - intros (user & info & X & H). rewrite (succeed_if_walk _ _ _ _ X). apply (EX _ _ X). exact H.
Qed.

(** The first condition that does not hold decides, whatever comes after it. *)
Theorem first_failure_decides : forall E args user info cs a q w rest, examined E args user info ->
  other_words args (words_of cs ++ a :: q :: w :: rest) -> Forall (fun c => plain E user info c /\ holds E user info c) cs ->
  plain E user info (a, q, w) -> ~ holds E user info (a, q, w) ->
  succeed_if E args = evaluate E user info a q w /\ evaluate E user info a q w <> PAM_SUCCESS.
Proof.
  intros E args user info cs a q w rest X O F PL NH. rewrite (succeed_if_walk _ _ _ _ X), (walk_skip _ _ _ _ _ O).
  assert (NS : evaluate E user info a q w <> PAM_SUCCESS) by (intro Y; apply NH; apply condition_holds; assumption).
  split; [|exact NS]. apply other_words_not in O. clear X PL NH. induction cs as [|[[a' q'] w'] cs IH].
  - cbn [words_of flat_map app] in *. inversion O as [|? ? A O1]. subst. inversion O1 as [|? ? Q O2]. subst. inversion O2 as [|? ? W O3]. subst.
    rewrite walk_cond by assumption. destruct (Z.eqb_spec (evaluate E user info a q w) PAM_SUCCESS); [contradiction|reflexivity].
  - inversion F as [|? ? (P1 & H1) F']. subst. cbn [words_of flat_map app] in *. inversion O as [|? ? A O1]. subst. inversion O1 as [|? ? Q O2]. subst. inversion O2 as [|? ? W O3]. subst.
    rewrite walk_cond by assumption. apply condition_holds in H1; [|exact P1]. rewrite H1, Z.eqb_refl. apply IH; assumption.
Qed.

(** Words left over after conditions that hold are an error. *)
Theorem incomplete_refused : forall E args user info cs rest, examined E args user info ->
  other_words args (words_of cs ++ rest) -> Forall (fun c => plain E user info c /\ holds E user info c) cs ->
  (length rest = 1 \/ length rest = 2)%nat -> succeed_if E args = PAM_SERVICE_ERR.
Proof.
  intros E args user info cs rest X O F L. rewrite (succeed_if_walk _ _ _ _ X), (walk_skip _ _ _ _ _ O). apply other_words_not in O. clear X.
  induction cs as [|[[a' q'] w'] cs IH].
  - cbn [words_of flat_map app] in *. destruct (words_three rest) as [(a & q & w & r & ->)|[->|[(a & ->)|(a & q & ->)]]]; try (cbn in L; lia).
    + inversion O as [|? ? A O1]. subst. cbn [walk]. rewrite A. reflexivity.
    + inversion O as [|? ? A O1]. subst. inversion O1 as [|? ? Q O2]. subst. cbn [walk]. rewrite A, Q. reflexivity.
  - inversion F as [|? ? (P1 & H1) F']. subst. cbn [words_of flat_map app] in *. inversion O as [|? ? A O1]. subst. inversion O1 as [|? ? Q O2]. subst. inversion O2 as [|? ? W O3]. subst.
    rewrite walk_cond by assumption. apply condition_holds in H1; [|exact P1]. rewrite H1, Z.eqb_refl. apply IH; assumption.
Qed.

(** ** Example *)
Definition exE (user : cstr) : env :=
  mkEnv (PAM_SUCCESS, user) None (fun u => if streq u (lit "eve") then Some (mkPw u 1000 100 (lit "/bin/sh") (lit "/home/eve")) else None)
    (Some (lit "sshd")) (Some (lit "ax:a")) None None (fun _ g => streq g (lit "staff")) (fun _ _ _ => 0) (fun p s => streq p s) (fun _ => false).

Example all_hold_example :
  let args := map lit ["quiet"; "uid"; ">="; "1000"; "user"; "in"; "bob:eve"; "debug"; "user"; "ingroup"; "wheel:staff"]%string in
  succeed_if (exE (lit "eve")) args = PAM_SUCCESS /\ examined (exE (lit "eve")) args (lit "eve") (e_getpwnam (exE (lit "eve")) (lit "eve")) /\
  exists ws, other_words args ws /\ length ws = 9%nat.
Proof.
  split; [vm_compute; reflexivity|]. split.
  - right. split; [|split; reflexivity]. intro I. repeat (destruct I as [I|I]; [discriminate I|]). destruct I.
  - eexists. split; [|shelve]. cbn [map].
    repeat (first [apply ow_option; [apply option_iff; reflexivity|]|apply ow_word; [intro I; apply option_iff in I; discriminate I|]|apply ow_nil]).
    Unshelve. reflexivity.
Qed.
Example failing_example : succeed_if (exE (lit "eve")) (map lit ["uid"; "<"; "1000"; "nonsense"]%string) = PAM_AUTH_ERR /\
  succeed_if (exE (lit "eve")) (map lit ["uid"; ">"; "10"; "nonsense"]%string) = PAM_SERVICE_ERR /\
  succeed_if (exE (lit "bob")) (map lit ["uid"; "<"; "1000"]%string) = PAM_USER_UNKNOWN.
Proof. vm_compute. auto. Qed.

(** ** What does not hold *)

(** "in means: is an item of the list", for a text with a colon: the remote user's name is such a text. Both ways. *)
Theorem in_means_item_refuted : 
  (exists E user v w, e_ruser E = Some v /\ ~ In v (strtoks (lit ":") w) /\ evaluate E user None (lit "ruser") (lit "in") w = PAM_SUCCESS) /\
  (exists E user v w, e_ruser E = Some v /\ item_of w v /\ evaluate E user None (lit "ruser") (lit "in") w = PAM_AUTH_ERR).
Proof.
  split.
  - exists (exE (lit "eve")), (lit "eve"), (lit "ax:a"), (lit "root:ax:a"). split; [reflexivity|]. split; [|vm_compute; reflexivity].
    vm_compute. intros [X|[X|[X|[]]]]; discriminate X.
  - exists (exE (lit "eve")), (lit "eve"), (lit "ax:a"), (lit "ax:ax:a"). split; [reflexivity|]. split; [|vm_compute; reflexivity].
    exists (lit "ax:"), []. split; [reflexivity|]. split; [right; reflexivity|left; reflexivity].
Qed.

(** "A value is what stands in the third place": not the words that are options. *)
Theorem any_value_refuted : exists E args, args = map lit ["user"; "!="; "audit"]%string /\ e_get_user E = (PAM_SUCCESS, lit "eve") /\ succeed_if E args = PAM_SERVICE_ERR.
Proof. exists (exE (lit "eve")), (map lit ["user"; "!="; "audit"]%string). split; [reflexivity|]. split; [reflexivity|]. vm_compute. reflexivity. Qed.

(** "Numbers are decimal": with a leading 0 they are octal. *)
Theorem decimal_numbers_refuted : exists E user info, evaluate E user (Some info) (lit "uid") (lit "<") (lit "01000") = PAM_AUTH_ERR /\ pw_uid info < 1000.
Proof. exists (exE (lit "eve")), (lit "eve"), (mkPw (lit "eve") 600 100 [] []). split; [vm_compute; reflexivity|]. reflexivity. Qed.

Print Assumptions condition_holds.
Print Assumptions condition_codes.
Print Assumptions unknown_user_refused.
Print Assumptions decimal_numeral.
Print Assumptions succeeds_iff_all_hold.
Print Assumptions first_failure_decides.
Print Assumptions incomplete_refused.
Print Assumptions in_means_item_refuted.
Print Assumptions any_value_refuted.
Print Assumptions decimal_numbers_refuted.
