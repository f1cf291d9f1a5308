(** Properties of pam_userdb. *)
From Coq Require Import String Ascii List Arith ZArith Bool Lia.
From Verif Require Import Base Str_Model Str_Facts Opt_Model Opt_Facts Inline_Model Inline_Props Userdb_Model.
Import ListNotations.
Local Open Scope Z_scope.

(** ** Options *)
(** The argument is the word, in any case. *)
Definition is_word (w : string) (a : cstr) : Prop := map tolower a = lit w.
(** The argument gives the value for the key, which may be in any case. *)
Definition gives (key : string) (a v : cstr) : Prop := exists k, a = (k ++ v)%list /\ map tolower k = lit key.

Lemma caseeq_iff : forall a w, caseeq a (lit w) = true <-> map tolower a = map tolower (lit w).
Proof. intros. unfold caseeq. rewrite streq_eq. tauto. Qed.
Lemma skip_icase_gives : forall key a v, map tolower (lit key) = lit key -> (skip_icase (lit key) a = Some v <-> gives key a v).
Proof.
  intros key a v L. unfold skip_icase, gives. rewrite L. split.
  - destruct (skip_prefix (lit key) (map tolower a)) as [r|] eqn:E; [|discriminate]. apply skip_prefix_some in E. cbn. intros Q. assert (Q' : v = skipn (length (lit key)) a) by congruence. clear Q. subst v. exists (firstn (length (lit key)) a). split; [symmetry; apply firstn_skipn|].
    rewrite <- firstn_map, E, firstn_app, Nat.sub_diag, firstn_all. cbn. apply app_nil_r.
  - intros (k & -> & K). rewrite map_app, K. destruct (skip_prefix (lit key) (lit key ++ map tolower v)) as [r|] eqn:E.
    + cbn. f_equal. rewrite <- K, map_length, skipn_app, Nat.sub_diag, skipn_all. reflexivity.
    + exfalso. eapply skip_prefix_none in E. apply E. eexists. reflexivity.
Qed.
Lemma no_value : forall key a w, map tolower (lit key) = lit key -> map tolower a = lit w -> skip_prefix (lit key) (lit w) = None -> forall v, ~ gives key a v.
Proof. intros key a w L A S v G. apply (skip_icase_gives key a v L) in G. unfold skip_icase in G. rewrite L, A, S in G. discriminate. Qed.
Lemma value_once : forall key a v w, gives key a v -> gives key a w -> v = w.
Proof. intros key a v w (k & -> & K) (k' & E & K'). assert (L : length k = length k') by (rewrite <- (map_length tolower k), <- (map_length tolower k'); congruence). apply (f_equal (skipn (length k))) in E. rewrite skipn_app, skipn_all, Nat.sub_diag in E. rewrite L, skipn_app, skipn_all, Nat.sub_diag in E. exact E. Qed.
Lemma two_keys : forall a v w, gives "db=" a v -> gives "crypt=" a w -> False.
Proof.
  intros a v w G H. apply (skip_icase_gives "db=" a v eq_refl) in G. destruct H as (k & -> & K). unfold skip_icase in G. rewrite map_app, K in G. discriminate.
Qed.
(** What one argument does. *)
Definition word_step (w : string) (a : cstr) (b b' : bool) : Prop := b' = true <-> b = true \/ is_word w a.
Definition value_step (key : string) (a : cstr) (p p' : option cstr) (empty_counts : bool) : Prop :=
  forall v, p' = Some v <-> gives key a v /\ (empty_counts = true \/ v <> []) \/ (forall w, ~ gives key a w) /\ p = Some v.
Definition steps (a : cstr) (o o' : opts) : Prop :=
  word_step "icase" a (o_icase o) (o_icase o') /\ word_step "dump" a (o_dump o) (o_dump o') /\ word_step "key_only" a (o_key_only o) (o_key_only o') /\
  word_step "use_first_pass" a (o_use_first o) (o_use_first o') /\ word_step "try_first_pass" a (o_try_first o) (o_try_first o') /\
  value_step "db=" a (o_db o) (o_db o') false /\ value_step "crypt=" a (o_crypt o) (o_crypt o') true.
Lemma one_step : forall o a, steps a o (parse_one o a).
Proof.
  intros o a.
  assert (W : forall w o', map tolower a = lit w -> skip_prefix (lit "db=") (lit w) = None -> skip_prefix (lit "crypt=") (lit w) = None ->
    word_step "icase" a (o_icase o) (o_icase o') -> word_step "dump" a (o_dump o) (o_dump o') -> word_step "key_only" a (o_key_only o) (o_key_only o') ->
    word_step "use_first_pass" a (o_use_first o) (o_use_first o') -> word_step "try_first_pass" a (o_try_first o) (o_try_first o') -> o_db o' = o_db o -> o_crypt o' = o_crypt o -> steps a o o').
  { intros w o' A N1 N2 S1 S2 S3 S4 S5 D C. pose proof (no_value "db=" a w eq_refl A N1) as G1. pose proof (no_value "crypt=" a w eq_refl A N2) as G2. unfold steps, value_step. rewrite D, C. do 5 (split; [assumption|]).
    split; intros v; (split; [intros Q; right; split; assumption|]); intros [(G & _)|(_ & Q)]; try exact Q; exfalso; [apply (G1 v G)|apply (G2 v G)]. }
  unfold parse_one.
  Ltac words A := unfold word_step, is_word; cbn [o_icase o_dump o_key_only o_use_first o_try_first]; rewrite ?A; let X := fresh in split; [intros X; try (left; exact X); try (right; reflexivity)|intros [X|X]; try exact X; try discriminate X; try reflexivity].
  destruct (streq a (lit "debug")) eqn:E0.
  { apply streq_eq in E0. apply (W "debug"%string); try reflexivity; try (subst a; words (eq_refl true)). subst a. reflexivity. }
  destruct (caseeq a (lit "icase")) eqn:E1; [apply caseeq_iff in E1; apply (W "icase"%string); try reflexivity; try exact E1; words E1|].
  destruct (caseeq a (lit "dump")) eqn:E2; [apply caseeq_iff in E2; apply (W "dump"%string); try reflexivity; try exact E2; words E2|].
  destruct (caseeq a (lit "unknown_ok")) eqn:E3; [apply caseeq_iff in E3; apply (W "unknown_ok"%string); try reflexivity; try exact E3; words E3|].
  destruct (caseeq a (lit "key_only")) eqn:E4; [apply caseeq_iff in E4; apply (W "key_only"%string); try reflexivity; try exact E4; words E4|].
  destruct (caseeq a (lit "use_first_pass")) eqn:E5; [apply caseeq_iff in E5; apply (W "use_first_pass"%string); try reflexivity; try exact E5; words E5|].
  destruct (caseeq a (lit "try_first_pass")) eqn:E6; [apply caseeq_iff in E6; apply (W "try_first_pass"%string); try reflexivity; try exact E6; words E6|].
  assert (NW : forall w, In w ["icase"; "dump"; "key_only"; "use_first_pass"; "try_first_pass"]%string -> ~ is_word w a).
  { intros w I X. unfold is_word in X. assert (C : forall w', map tolower (lit w') = lit w' -> caseeq a (lit w') = false -> map tolower a <> lit w') by (intros w' L E Q; rewrite <- L in Q; apply caseeq_iff in Q; congruence).
    cbn [In] in I. destruct I as [<-|[<-|[<-|[<-|[<-|[]]]]]]; eapply C in X; try reflexivity; eassumption. }
  assert (WS : forall w b, In w ["icase"; "dump"; "key_only"; "use_first_pass"; "try_first_pass"]%string -> word_step w a b b).
  { intros w b I. unfold word_step. split; [auto|]. intros [X|X]; [exact X|]. exfalso. apply (NW w I X). }
  destruct (skip_icase (lit "db=") a) as [v|] eqn:E7.
  { apply (skip_icase_gives "db=" a v eq_refl) in E7. unfold steps. cbn [o_icase o_dump o_key_only o_use_first o_try_first o_db o_crypt].
    do 5 (split; [apply WS; cbn; tauto|]). split.
    - intros w. split.
      + intros Q. left. destruct v as [|c v]; [discriminate|]. assert (w = c :: v) by congruence. subst w. split; [exact E7|right; discriminate].
      + intros [(G & [X|X])|(X & _)]; [discriminate| |exfalso; apply (X v E7)]. pose proof (value_once _ _ _ _ E7 G). subst w. destruct v; [congruence|reflexivity].
    - intros w. split; [intros Q; right; split; [intros x G; apply (two_keys a v x E7 G)|exact Q]|]. intros [(G & _)|(_ & Q)]; [exfalso; apply (two_keys a v w E7 G)|exact Q]. }
  assert (ND : forall w, ~ gives "db=" a w) by (intros w G; apply (skip_icase_gives "db=" a w eq_refl) in G; congruence).
  assert (VD : value_step "db=" a (o_db o) (o_db o) false) by (intros w; split; [intros Q; right; auto|intros [(G & _)|(_ & Q)]; [exfalso; apply (ND w G)|exact Q]]).
  destruct (skip_icase (lit "crypt=") a) as [v|] eqn:E8.
  - apply (skip_icase_gives "crypt=" a v eq_refl) in E8. unfold steps. cbn [o_icase o_dump o_key_only o_use_first o_try_first o_db o_crypt]. do 5 (split; [apply WS; cbn; tauto|]). split; [exact VD|].
    intros w. split; [intros Q; assert (w = v) by congruence; subst w; left; auto|]. intros [(G & _)|(X & _)]; [f_equal; apply (value_once _ _ _ _ E8 G)|exfalso; apply (X v E8)].
  - assert (NC : forall w, ~ gives "crypt=" a w) by (intros w G; apply (skip_icase_gives "crypt=" a w eq_refl) in G; congruence).
    unfold steps. do 5 (split; [apply WS; cbn; tauto|]). split; [exact VD|]. intros w. split; [intros Q; right; auto|intros [(G & _)|(_ & Q)]; [exfalso; apply (NC w G)|exact Q]].
Qed.
(** The last argument that gives a value for the key. *)
Definition last_value (key : string) (args : list cstr) (v : cstr) : Prop := exists pre a post, args = (pre ++ a :: post)%list /\ gives key a v /\ forall b w, In b post -> ~ gives key b w.
Theorem userdb_options : forall args,
  (o_icase (parse args) = true <-> exists a, In a args /\ is_word "icase" a) /\ (o_dump (parse args) = true <-> exists a, In a args /\ is_word "dump" a) /\
  (o_key_only (parse args) = true <-> exists a, In a args /\ is_word "key_only" a) /\ (o_use_first (parse args) = true <-> exists a, In a args /\ is_word "use_first_pass" a) /\
  (o_try_first (parse args) = true <-> exists a, In a args /\ is_word "try_first_pass" a) /\
  (forall v, o_db (parse args) = Some v <-> last_value "db=" args v /\ v <> []) /\ (forall v, o_crypt (parse args) = Some v <-> last_value "crypt=" args v).
Proof.
  assert (WL : forall w a args b b', (b = true <-> exists x, In x args /\ is_word w x) -> word_step w a b b' -> (b' = true <-> exists x, In x (args ++ [a]) /\ is_word w x)).
  { intros w a args b b' I S. unfold word_step in S. rewrite S, I. split.
    - intros [(x & X & Y)|Y]; [exists x|exists a]; (split; [apply in_or_app; cbn; auto|exact Y]).
    - intros (x & X & Y). apply in_app_or in X. destruct X as [X|[<-|[]]]; [left; exists x; auto|right; exact Y]. }
  assert (LL : forall key a args v, last_value key (args ++ [a]) v <-> gives key a v \/ (forall w, ~ gives key a w) /\ last_value key args v).
  { intros key a args v. split.
    - intros (pre & x & post & E & G & N). destruct (rev post) as [|y r] eqn:R.
      + assert (post = []) by (rewrite <- (rev_involutive post), R; reflexivity). subst post. apply app_inj_tail in E. destruct E as [_ <-]. left. exact G.
      + assert (P : post = (rev r ++ [y])%list) by (rewrite <- (rev_involutive post), R; reflexivity). subst post. rewrite app_comm_cons, app_assoc in E. apply app_inj_tail in E. destruct E as [-> <-]. right. split; [intros w; apply N, in_or_app; right; left; reflexivity|].
        exists pre, x, (rev r). split; [reflexivity|]. split; [exact G|]. intros b w B. apply N, in_or_app. left. exact B.
    - intros [G|(X & pre & x & post & -> & G & N)]; [exists args, a, []; split; [reflexivity|]; split; [exact G|intros b w []]|]. exists pre, x, (post ++ [a])%list. split; [rewrite <- app_assoc; reflexivity|]. split; [exact G|].
      intros b w B. apply in_app_or in B. destruct B as [B|[<-|[]]]; [apply N; exact B|apply X]. }
  induction args as [|a args IH] using rev_ind.
  - assert (N1 : forall w, false = true <-> exists a : cstr, In a [] /\ is_word w a) by (intros w; split; [discriminate|intros (x & [] & _)]).
    assert (N2 : forall key v, ~ last_value key [] v) by (intros key v (pre & x & post & E & _); destruct pre; discriminate).
    cbn. do 5 (split; [apply N1|]). split; intros v; (split; [discriminate|]); [intros (X & _)|intros X]; exfalso; eapply N2; exact X.
  - unfold parse in *. rewrite fold_left_app. cbn [fold_left]. set (o := fold_left parse_one args _) in *. destruct IH as (I1 & I2 & I3 & I4 & I5 & I6 & I7). destruct (one_step o a) as (S1 & S2 & S3 & S4 & S5 & S6 & S7).
    split; [apply (WL _ _ _ _ _ I1 S1)|]. split; [apply (WL _ _ _ _ _ I2 S2)|]. split; [apply (WL _ _ _ _ _ I3 S3)|]. split; [apply (WL _ _ _ _ _ I4 S4)|]. split; [apply (WL _ _ _ _ _ I5 S5)|]. split; intros v.
    + rewrite (S6 v), I6, LL. split; [intros [(G & [X|X])|(X & Y & Z)]; [discriminate| |]; tauto|]. intros ([G|(X & Y)] & Z); tauto.
    + rewrite (S7 v), I7, LL. tauto.
Qed.

(** ** Looking up *)
(** The password these bytes hold: up to the first NUL, if there is one. *)
Definition holds (l : list ascii) (q : cstr) : Prop := ~ In NUL q /\ (l = q \/ exists r, l = (q ++ NUL :: r)%list).
Definition alike (icase : bool) (p q : cstr) : Prop := if icase then map tolower p = map tolower q else p = q.
(** The entry with this key. *)
Definition entry (d : dbm) (key data : list ascii) : Prop := exists a b, d = (a ++ (key, data) :: b)%list /\ forall e, In e a -> fst e <> key.
(** Passwords are stored as hashes. *)
Definition hashed (o : opts) : Prop := exists k r, o_crypt o = Some (k ++ r)%list /\ map tolower k = lit "crypt".
(** The password of the user is right: *)
Inductive right (crypt : cstr -> cstr -> option cstr) (o : opts) (d : dbm) (user p : cstr) : Prop :=
| in_key : forall rest v q, o_key_only o = true -> In ((user ++ lit "-" ++ rest)%list, v) d -> holds rest q -> alike (o_icase o) p q -> right crypt o d user p
| as_hash : forall data salt, o_key_only o = false -> hashed o -> o_icase o = false -> entry d user data -> (13 <= length data)%nat -> holds data salt -> crypt p salt = Some data -> right crypt o d user p
| as_text : forall data q, o_key_only o = false -> ~ hashed o -> entry d user data -> holds data q -> alike (o_icase o) p q -> right crypt o d user p.
(** The user has an entry. *)
Definition present (o : opts) (d : dbm) (user : cstr) : Prop :=
  if o_key_only o then exists rest v, In ((user ++ lit "-" ++ rest)%list, v) d else exists data, entry d user data.

Lemma holds_cut : forall l, holds l (cut l).
Proof. intros l. split; [apply cut_no_nul|]. destruct (cut_prefix l) as (r & E & [->|(r' & ->)]); [left; rewrite app_nil_r in E; exact E|right; exists r'; exact E]. Qed.
Lemma holds_once : forall l q, holds l q -> cut l = q.
Proof.
  intros l q (N & [->|(r & ->)]); [apply cut_id; exact N|]. induction q as [|c q IH]; [reflexivity|]. cbn [app cut]. destruct (Ascii.eqb c NUL) eqn:E; [apply Ascii.eqb_eq in E; exfalso; apply N; left; exact E|]. f_equal. apply IH. intros I. apply N. right. exact I.
Qed.
Lemma same_iff : forall icase p l, is_cstr p -> exists b, same icase p (cut l) = Ok b /\ (b = true <-> alike icase p (cut l)).
Proof.
  intros icase p l C. unfold same. destruct icase.
  - destruct (consttime_case_is_equality (S (length p)) p (cut l) C ltac:(exact (cut_no_nul l)) ltac:(lia)) as (b & E & I). rewrite E. exists b. split; [reflexivity|exact I].
  - destruct (consttime_is_equality (S (length p)) p (cut l) C ltac:(exact (cut_no_nul l)) ltac:(lia)) as (b & E & I). rewrite E. exists b. split; [reflexivity|exact I].
Qed.
Lemma fetch_entry : forall d key data, fetch d key = Some data <-> entry d key data.
Proof.
  intros d key data. unfold fetch. induction d as [|[k v] d IH]; cbn [find option_map].
  - split; [discriminate|]. intros (a & b & E & _). destruct a; discriminate.
  - cbn [fst snd]. destruct (streq k key) eqn:E; cbn [option_map snd].
    + apply streq_eq in E. subst k. split.
      * intros Q. assert (v = data) by congruence. subst v. exists [], d. split; [reflexivity|intros e []].
      * intros (a & b & E & N). destruct a as [|x a]; cbn [app] in E; [congruence|]. assert (X : x = (key, v)) by congruence. subst x. exfalso. apply (N (key, v)); [left; reflexivity|reflexivity].
    + rewrite IH. assert (NK : k <> key) by (intros ->; rewrite streq_refl in E; discriminate). split.
      * intros (a & b & -> & N). exists ((k, v) :: a), b. split; [reflexivity|]. intros e [<-|I]; [exact NK|apply N; exact I].
      * intros (a & b & X & N). destruct a as [|x a]; cbn [app] in X; [congruence|]. assert (Y : d = (a ++ (key, data) :: b)%list) by congruence. exists a, b. split; [exact Y|]. intros e I. apply N. right. exact I.
Qed.
Lemma password_part_iff : forall user key rest, password_part user key = Some rest <-> key = (user ++ lit "-" ++ rest)%list.
Proof.
  intros user key rest. unfold password_part. split.
  - destruct ((length user <? length key)%nat && Ascii.eqb (nth (length user) key NUL) "-" && streq (firstn (length user) key) user) eqn:E; [|discriminate]. intros Q. assert (R : rest = skipn (S (length user)) key) by congruence. clear Q.
    apply andb_prop in E. destruct E as [E E3]. apply andb_prop in E. destruct E as [E1 E2]. apply Nat.ltb_lt in E1. apply Ascii.eqb_eq in E2. apply streq_eq in E3.
    rewrite <- (firstn_skipn (length user) key) at 1. rewrite E3. f_equal. subst rest. clear E3. revert E1 E2. generalize (length user). clear user. induction key as [|c key IH]; intros n L D; [cbn in L; lia|]. destruct n as [|n]; [cbn in D; subst c; reflexivity|]. cbn [skipn]. apply IH; [cbn in L; lia|exact D].
  - intros ->. rewrite app_length. cbn [lit list_ascii_of_string app length]. assert (L : (length user <? length user + S (length rest))%nat = true) by (apply Nat.ltb_lt; lia). rewrite L. rewrite app_nth2, Nat.sub_diag by lia. cbn [nth].
    assert (F : firstn (length user) (user ++ "-"%char :: rest) = user) by (rewrite firstn_app, Nat.sub_diag, firstn_all; cbn; apply app_nil_r). rewrite F. assert (SU : streq user user = true) by apply streq_refl. rewrite SU, Ascii.eqb_refl. cbn [andb]. f_equal.
    replace (S (length user)) with (length user + 1)%nat by lia. rewrite skipn_app. rewrite skipn_all2 by lia. cbn [app]. replace (length user + 1 - length user)%nat with 1%nat by lia. reflexivity.
Qed.
Lemma hashed_iff : forall o, hashed o <-> match o_crypt o with Some c => match skip_icase (lit "crypt") c with Some _ => true | None => false end | None => false end = true.
Proof.
  intros o. unfold hashed. destruct (o_crypt o) as [c|]; [|split; [intros (k & r & Q & _); discriminate|discriminate]]. destruct (skip_icase (lit "crypt") c) as [r|] eqn:E.
  - split; [reflexivity|]. intros _. apply (skip_icase_gives "crypt" c r eq_refl) in E. destruct E as (k & -> & K). exists k, r. auto.
  - split; [|discriminate]. intros (k & r & Q & K). assert (c = (k ++ r)%list) by congruence. assert (G : skip_icase (lit "crypt") c = Some r) by (apply (skip_icase_gives "crypt" c r eq_refl); exists k; auto). congruence.
Qed.

Section Users.
Variable crypt : cstr -> cstr -> option cstr.
Variable open : cstr -> option dbm.
Variable mem : nat -> bool.
Notation user_lookup := (user_lookup crypt open mem).

(** The loop over the keys. *)
Lemma keys_meaning : forall icase user p d k saw, is_cstr p ->
  exists r, key_loop mem icase user p d k saw = Ok r /\ (r = 0 \/ r = 1 \/ r = -1 \/ r = -2) /\
    (r = 0 -> exists rest v, In ((user ++ lit "-" ++ rest)%list, v) d /\ alike icase p (cut rest)) /\
    ((forall i, mem i = true) -> r <> -2 /\ (r = 0 <-> exists rest v, In ((user ++ lit "-" ++ rest)%list, v) d /\ alike icase p (cut rest)) /\
       (r = 1 <-> saw = false /\ forall rest v, ~ In ((user ++ lit "-" ++ rest)%list, v) d)).
Proof.
  intros icase user p d. induction d as [|[key x] d IH]; intros k saw C; cbn [key_loop].
  - exists (if saw then -1 else 1). split; [reflexivity|]. split; [destruct saw; auto|]. split; [destruct saw; discriminate|]. intros M. split; [destruct saw; discriminate|].
    split; [split; [destruct saw; discriminate|intros (rest & v & [] & _)]|]. split; [destruct saw; [discriminate|]; intros _; split; [reflexivity|intros rest v []]|intros (-> & _); reflexivity].
  - destruct (password_part user key) as [rest|] eqn:E.
    + apply password_part_iff in E. subst key. destruct (mem (3 + k)%nat) eqn:ME.
      * destruct (same_iff icase p rest C) as (b & EB & IB). unfold strndup. cbn [negb]. rewrite EB. cbn [bind]. destruct b.
        { assert (A : alike icase p (cut rest)) by (apply IB; reflexivity). exists 0. split; [reflexivity|]. split; [auto|]. split; [intros _; exists rest, x; split; [left; reflexivity|exact A]|]. intros M. split; [discriminate|].
          split; [split; [intros _; exists rest, x; split; [left; reflexivity|exact A]|reflexivity]|]. split; [discriminate|]. intros (_ & N). exfalso. eapply N. left. reflexivity. }
        destruct (IH (S k) true C) as (r & ER & R & Z0 & ALL). exists r. split; [exact ER|]. split; [exact R|]. split; [intros Q; destruct (Z0 Q) as (rs & v & I & A); exists rs, v; split; [right; exact I|exact A]|].
        intros M. destruct (ALL M) as (N2 & I0 & I1). split; [exact N2|]. split.
        -- rewrite I0. split; [intros (rs & v & I & A); exists rs, v; split; [right; exact I|exact A]|]. intros (rs & v & [Q|I] & A); [|exists rs, v; auto]. exfalso. assert (Q' : (user ++ lit "-" ++ rs)%list = (user ++ lit "-" ++ rest)%list) by congruence. apply app_inv_head in Q'. apply app_inv_head in Q'. subst rs. apply IB in A. discriminate.
        -- rewrite I1. split; [intros (Q & _); discriminate|]. intros (_ & N). exfalso. eapply N. left. reflexivity.
      * exists (-2). split; [reflexivity|]. split; [auto|]. split; [discriminate|]. intros M. rewrite M in ME. discriminate.
    + assert (NE : forall rest v, (key, x) <> ((user ++ lit "-" ++ rest)%list, v)) by (intros rest v Q; assert (Q' : key = (user ++ lit "-" ++ rest)%list) by congruence; apply password_part_iff in Q'; congruence).
      destruct (IH (S k) saw C) as (r & ER & R & Z0 & ALL). exists r. split; [exact ER|]. split; [exact R|]. split; [intros Q; destruct (Z0 Q) as (rs & v & I & A); exists rs, v; split; [right; exact I|exact A]|].
      intros M. destruct (ALL M) as (N2 & I0 & I1). split; [exact N2|]. split.
      * rewrite I0. split; [intros (rs & v & I & A); exists rs, v; split; [right; exact I|exact A]|]. intros (rs & v & [Q|I] & A); [exfalso; eapply NE; exact Q|exists rs, v; auto].
      * rewrite I1. split; intros (-> & N); (split; [reflexivity|]); intros rest v; [intros [Q|I]; [eapply NE; exact Q|eapply N; exact I]|intros I; eapply N; right; exact I].
Qed.

(** What looking up a user comes to. *)
Lemma lookup_meaning : forall o name d user p, is_cstr user -> is_cstr p -> o_db o = Some name -> open name = Some d -> o_dump o = false \/ dump_defined d = true ->
  exists r, user_lookup o user p = Ok r /\ (r = 0 \/ r = 1 \/ r = -1 \/ r = -2) /\ (r = 0 -> right crypt o d user p) /\ (r = 0 \/ r = -1 -> present o d user) /\
    ((forall i, mem i = true) -> r <> -2 /\ (r = 0 <-> right crypt o d user p) /\ (r = 1 <-> ~ present o d user)).
Proof.
  intros o name d user p CU CP DB OP DU. unfold Userdb_Model.user_lookup. rewrite DB, OP. assert (DD : o_dump o && negb (dump_defined d) = false) by (destruct DU as [->| ->]; [reflexivity|apply andb_false_r]). rewrite DD.
  destruct (o_key_only o) eqn:KO.
  - assert (RI : forall rest v, In ((user ++ lit "-" ++ rest)%list, v) d -> alike (o_icase o) p (cut rest) -> right crypt o d user p) by (intros rest v I A; eapply in_key; [exact KO|exact I|apply holds_cut|exact A]).
    assert (IR : right crypt o d user p -> exists rest v, In ((user ++ lit "-" ++ rest)%list, v) d /\ alike (o_icase o) p (cut rest)).
    { intros [rest v q _ I H A|? ? K _|? ? K _]; try congruence. exists rest, v. split; [exact I|]. rewrite (holds_once _ _ H). exact A. }
    assert (PI : present o d user <-> exists rest v, In ((user ++ lit "-" ++ rest)%list, v) d) by (unfold present; rewrite KO; tauto).
    assert (LOOP : exists r, key_loop mem (o_icase o) user p d 0 false = Ok r /\ (r = 0 \/ r = 1 \/ r = -1 \/ r = -2) /\ (r = 0 -> right crypt o d user p) /\ (r = 0 \/ r = -1 -> present o d user) /\
      ((forall i, mem i = true) -> r <> -2 /\ (r = 0 <-> right crypt o d user p) /\ (r = 1 <-> ~ present o d user))).
    { destruct (keys_meaning (o_icase o) user p d 0 false CP) as (r & ER & R & Z0 & ALL). exists r. split; [exact ER|]. split; [exact R|]. split; [intros Q; destruct (Z0 Q) as (rs & v & I & A); exact (RI rs v I A)|].
      split.
      - intros Q. destruct Q as [Q|Q]; [destruct (Z0 Q) as (rs & v & I & A); apply PI; exists rs, v; exact I|]. apply PI. subst r. clear - ER. revert ER. generalize 0%nat as k. assert (G : forall d k saw, key_loop mem (o_icase o) user p d k saw = Ok (-1) -> saw = true \/ exists rest v, In ((user ++ lit "-" ++ rest)%list, v) d).
        { clear. induction d as [|[key x] d IH]; intros k saw H; cbn [key_loop] in H; [destruct saw; [left; reflexivity|discriminate]|]. destruct (password_part user key) as [rest|] eqn:E.
          - right. apply password_part_iff in E. subst key. exists rest, x. left. reflexivity.
          - apply IH in H. destruct H as [H|(rest & v & I)]; [left; exact H|right; exists rest, v; right; exact I]. }
        intros k ER. apply G in ER. destruct ER as [X|X]; [discriminate|exact X].
      - intros M. destruct (ALL M) as (N2 & I0 & I1). split; [exact N2|]. split; [rewrite I0; split; [intros (rs & v & I & A); exact (RI rs v I A)|exact IR]|]. rewrite I1, PI. split; [intros (_ & N) (rs & v & I); exact (N rs v I)|]. intros N. split; [reflexivity|]. intros rs v I. apply N. exists rs, v. exact I. }
    destruct (if mem 0%nat then fetch d (user ++ lit "-" ++ p) else None) as [data|] eqn:F; [|exact LOOP].
    destruct (mem 0%nat); [|discriminate]. apply fetch_entry in F. destruct F as (a & b & E & _).
    assert (I : In ((user ++ lit "-" ++ p)%list, data) d) by (rewrite E; apply in_or_app; right; left; reflexivity). assert (RT : right crypt o d user p) by (apply (RI p data I); rewrite cut_id by exact CP; unfold alike; destruct (o_icase o); reflexivity).
    exists 0. split; [reflexivity|]. split; [auto|]. split; [auto|]. assert (PR : present o d user) by (apply PI; eauto). split; [auto|]. intros _. split; [discriminate|]. split; [tauto|]. split; [discriminate|tauto].
  - assert (PI : present o d user <-> exists data, entry d user data) by (unfold present; rewrite KO; tauto).
    destruct (if mem 0%nat then fetch d user else None) as [data|] eqn:F.
    + assert (F' : fetch d user = Some data) by (destruct (mem 0%nat); [exact F|discriminate]). pose proof (proj1 (fetch_entry d user data) F') as EN. assert (PR : present o d user) by (apply PI; eauto).
      assert (UN : forall y, entry d user y -> y = data) by (intros y Y; apply fetch_entry in Y; congruence).
      assert (BOOL : forall b : bool, (b = true -> right crypt o d user p) -> ((forall i, mem i = true) -> right crypt o d user p -> b = true) -> exists r, Ok (if b then 0 else -1) = Ok r /\ (r = 0 \/ r = 1 \/ r = -1 \/ r = -2) /\ (r = 0 -> right crypt o d user p) /\ (r = 0 \/ r = -1 -> present o d user) /\
        ((forall i, mem i = true) -> r <> -2 /\ (r = 0 <-> right crypt o d user p) /\ (r = 1 <-> ~ present o d user))).
      { intros b T1 T2. exists (if b then 0 else -1). split; [reflexivity|]. split; [destruct b; auto|]. split; [destruct b; [auto|discriminate]|]. split; [auto|]. intros M. split; [destruct b; discriminate|]. split; [|split; [destruct b; discriminate|tauto]].
        split; [destruct b; [auto|discriminate]|]. intros R. rewrite (T2 M R). reflexivity. }
      destruct (match o_crypt o with Some c => match skip_icase (lit "crypt") c with Some _ => true | None => false end | None => false end) eqn:HA.
      * apply hashed_iff in HA. apply BOOL.
        -- unfold hash_matches. destruct (Nat.ltb_spec (length data) 13); [discriminate|]. destruct (o_icase o) eqn:IC; [discriminate|]. destruct (mem 1%nat); [|discriminate]. destruct (mem 2%nat); [|discriminate]. cbn [negb]. destruct (crypt p (strndup data)) as [h|] eqn:CR; [|discriminate].
           intros Q. apply streq_eq in Q. subst h. eapply as_hash; try eassumption. apply holds_cut.
        -- intros M [? ? ? K _|data' salt _ _ IC EN' LE HO CR|? ? _ NH]; [congruence| |contradiction]. pose proof (UN _ EN'). subst data'. unfold hash_matches. destruct (Nat.ltb_spec (length data) 13); [lia|]. rewrite IC, !M. cbn [negb]. unfold strndup. rewrite (holds_once _ _ HO), CR. apply streq_refl.
      * assert (NH : ~ hashed o) by (intros H; apply hashed_iff in H; congruence). destruct (mem 1%nat) eqn:M1; cbn [negb].
        -- destruct (same_iff (o_icase o) p data CP) as (b & EB & IB). unfold strndup. rewrite EB. cbn [bind]. apply BOOL.
           ++ intros T. apply IB in T. eapply as_text; try eassumption. apply holds_cut.
           ++ intros M [? ? ? K _|? ? _ HH|data' q _ _ EN' HO A]; [congruence|contradiction|]. pose proof (UN _ EN'). subst data'. apply IB. rewrite (holds_once _ _ HO). exact A.
        -- apply (BOOL false); [discriminate|]. intros M. rewrite M in M1. discriminate.
    + exists 1. split; [reflexivity|]. split; [auto|]. split; [discriminate|]. split; [intros [X|X]; discriminate|]. intros M. rewrite M in F. split; [discriminate|].
      assert (NP : forall y, ~ entry d user y) by (intros y Y; apply fetch_entry in Y; congruence). split; [split; [discriminate|intros [? ? ? K _|y ? _ _ _ Y|y ? _ _ Y]; [congruence|exfalso; apply (NP y Y)|exfalso; apply (NP y Y)]]|].
      split; [|reflexivity]. intros _ X. apply PI in X. destruct X as (y & Y). apply (NP y Y).
Qed.

(** ** Authentication *)
(** The password given: the one an earlier module got, if that is to be used, or the user's answer. *)
Definition given (o : opts) (h : handle) (p : cstr) : Prop :=
  u_get h = 0 /\ ((o_use_first o || o_try_first o = true /\ u_item h = Some p) \/
    ((o_use_first o = false /\ o_try_first o = false \/ o_try_first o = true /\ u_item h = None) /\ u_talk h = (0, Some p) /\ u_set h = 0)).
Lemma obtain_iff : forall h p, obtain h = inr p <-> u_talk h = (0, Some p) /\ u_set h = 0 /\ u_get h = 0.
Proof.
  intros h p. unfold obtain. destruct (u_talk h) as [r a]. cbn [fst snd]. destruct (Z.eqb_spec r 0); cbn [negb]; [subst r|split; [discriminate|intros (Q & _); congruence]]. destruct a as [a|]; [|split; [discriminate|intros (Q & _); discriminate]].
  destruct (Z.eqb_spec (u_set h) 0); cbn [negb]; [|split; [discriminate|intros (_ & Q & _); congruence]]. destruct (Z.eqb_spec (u_get h) 0); cbn [negb]; [|split; [discriminate|intros (_ & _ & Q); congruence]].
  split; [intros Q; assert (a = p) by congruence; subst a; auto|]. intros (Q & _). congruence.
Qed.
Lemma given_iff : forall o h p, get_password o h = inr p <-> given o h p.
Proof.
  intros o h p. unfold get_password, given. destruct (o_try_first o) eqn:T.
  - rewrite andb_false_r, orb_true_r. destruct (Z.eqb_spec (u_get h) 0) as [G|G].
    + destruct (u_item h) as [q|] eqn:I.
      * split; [intros Q; assert (q = p) by congruence; subst q; auto|]. intros (_ & [(_ & Q)|(Q & _)]); [congruence|destruct Q as [(_ & Q)|(_ & Q)]; congruence].
      * rewrite obtain_iff. split; [intros (A & B & _); split; [exact G|]; right; auto|]. intros (_ & [(_ & Q)|(_ & A & B)]); [discriminate|auto].
    + rewrite obtain_iff. split; [intros (_ & _ & Q); congruence|intros (Q & _); congruence].
  - destruct (o_use_first o) eqn:U; cbn [negb andb orb].
    + destruct (Z.eqb_spec (u_get h) 0) as [G|G]; [|split; [discriminate|intros (Q & _); congruence]]. destruct (u_item h) as [q|] eqn:I.
      * split; [intros Q; assert (q = p) by congruence; subst q; auto|]. intros (_ & [(_ & Q)|(Q & _)]); [congruence|destruct Q as [(Q & _)|(Q & _)]; congruence].
      * split; [discriminate|]. intros (_ & [(_ & Q)|(Q & _)]); [discriminate|destruct Q as [(Q & _)|(Q & _)]; discriminate].
    + destruct (obtain h) as [r|q] eqn:O.
      * split; [discriminate|]. intros (G & [(Q & _)|(_ & A & B)]); [discriminate|]. assert (X : obtain h = inr p) by (apply obtain_iff; auto). congruence.
      * apply obtain_iff in O. destruct O as (O1 & O2 & O3). rewrite O3. cbn [Z.eqb]. split; [intros Q; assert (q = p) by congruence; subst q; split; [reflexivity|]; right; split; [left; split; reflexivity|split; assumption]|]. intros (_ & [X|X]); [destruct X; discriminate|destruct X as (_ & A & _); congruence].
Qed.

Lemma obtain_error : forall h e, obtain h = inl e -> e <> 0.
Proof.
  intros h e H. unfold obtain in H. destruct (Z.eqb_spec (fst (u_talk h)) 0); cbn [negb] in H; [|congruence]. destruct (snd (u_talk h)); [|injection H as <-; discriminate].
  destruct (Z.eqb_spec (u_set h) 0); cbn [negb] in H; [|congruence]. destruct (Z.eqb_spec (u_get h) 0); cbn [negb] in H; [discriminate|congruence].
Qed.
Lemma get_error : forall o h e, get_password o h = inl e -> e <> 0.
Proof.
  intros o h e H. unfold get_password in H. assert (A : forall i, match (if u_get h =? 0 then i else None) with Some p => inr p | None => if o_try_first o then obtain h else inl PAM_AUTHTOK_RECOVERY_ERR end = inl e -> e <> 0).
  { intros i Q. destruct (if u_get h =? 0 then i else None); [discriminate|]. destruct (o_try_first o); [apply (obtain_error h e Q)|injection Q as <-; discriminate]. }
  destruct (negb (o_use_first o) && negb (o_try_first o)); [|apply (A _ H)]. destruct (obtain h) as [x|x] eqn:O; [|apply (A _ H)]. apply (obtain_error h). congruence.
Qed.

(** Success is only for a user whose password is right, whatever memory does; and then it is, if memory does not run out. *)
Theorem userdb_authentication : forall args h, is_cstr (snd (u_user h)) -> (forall p, u_item h = Some p -> is_cstr p) -> (forall p, snd (u_talk h) = Some p -> is_cstr p) ->
  (forall name d, o_db (parse args) = Some name -> open name = Some d -> o_dump (parse args) = false \/ dump_defined d = true) ->
  exists r, authenticate crypt open mem args h = Ok r /\
    (r = PAM_SUCCESS -> exists name d p, o_db (parse args) = Some name /\ open name = Some d /\ fst (u_user h) = 0 /\ given (parse args) h p /\ right crypt (parse args) d (snd (u_user h)) p) /\
    ((forall i, mem i = true) -> forall name d p, o_db (parse args) = Some name -> open name = Some d -> fst (u_user h) = 0 -> given (parse args) h p ->
       (r = PAM_SUCCESS <-> right crypt (parse args) d (snd (u_user h)) p) /\ (r = PAM_USER_UNKNOWN <-> ~ present (parse args) d (snd (u_user h))) /\ (r = PAM_SUCCESS \/ r = PAM_AUTH_ERR \/ r = PAM_USER_UNKNOWN)).
Proof.
  intros args h CU CI CT DU. unfold authenticate. set (o := parse args) in *. destruct (o_db o) as [name|] eqn:DB; [|eexists; split; [reflexivity|]; split; [discriminate|intros _ name d p Q; discriminate]].
  destruct (u_user h) as [ur user]. cbn [fst snd] in *. destruct (Z.eqb_spec ur 0) as [UR|UR]; cbn [negb]; [|eexists; split; [reflexivity|]; split; [discriminate|intros _ ? d p _ _ Q; congruence]].
  destruct (get_password o h) as [e|p] eqn:GP.
  { exists e. split; [reflexivity|]. assert (NE : e <> 0).
    { apply get_error in GP. exact GP. }
    split; [intros ->; congruence|]. intros _ name' d p _ _ _ G. apply given_iff in G. congruence. }
  assert (CP : is_cstr p).
  { apply given_iff in GP. destruct GP as (_ & [(_ & I)|(_ & T & _)]); [apply CI; exact I|apply CT; rewrite T; reflexivity]. }
  destruct (open name) as [d|] eqn:OP.
  - destruct (lookup_meaning o name d user p CU CP DB OP (DU name d eq_refl OP)) as (r & ER & R & Z0 & _ & ALL). rewrite ER. cbn [bind]. eexists. split; [reflexivity|].
    assert (S : forall r : Z, r = 0 \/ r = 1 \/ r = -1 \/ r = -2 -> ((if r =? -2 then 3 else if r =? -1 then 7 else if r =? 1 then 10 else if r =? 0 then 0 else 3) = 0 <-> r = 0)) by (intros x [->|[->|[->| ->]]]; cbn; split; congruence).
    split; [intros Q; apply (S r R) in Q; exists name, d, p; split; [reflexivity|]; split; [exact OP|]; split; [exact UR|]; split; [apply given_iff; exact GP|apply Z0; exact Q]|].
    intros M name' d' p' Q1 Q2 _ G. assert (name' = name) by congruence. subst name'. assert (d' = d) by congruence. subst d'. apply given_iff in G. assert (p' = p) by congruence. subst p'. destruct (ALL M) as (N2 & I0 & I1). split; [rewrite (S r R); exact I0|].
    split; [rewrite <- I1|]; destruct R as [->|[->|[->| ->]]]; cbn; try congruence; auto; split; congruence.
  - unfold Userdb_Model.user_lookup. rewrite DB, OP. cbn. eexists. split; [reflexivity|]. split; [discriminate|]. intros _ name' d' p' Q1 Q2. congruence.
Qed.

(** The account is good exactly if the user has an entry. *)
Theorem userdb_account : forall args h name, is_cstr (snd (u_user h)) -> o_db (parse args) = Some name -> (forall d, open name = Some d -> o_dump (parse args) = false \/ dump_defined d = true) ->
  exists r, acct_mgmt crypt open mem args h = Ok r /\
    (r = PAM_SUCCESS -> exists d, open name = Some d /\ fst (u_user h) = 0 /\ present (parse args) d (snd (u_user h))) /\
    ((forall i, mem i = true) -> forall d, open name = Some d -> fst (u_user h) = 0 -> (r = PAM_SUCCESS <-> present (parse args) d (snd (u_user h))) /\ (r = PAM_SUCCESS \/ r = PAM_USER_UNKNOWN)).
Proof.
  intros args h name CU DB DU. unfold acct_mgmt. set (o := parse args) in *. destruct (u_user h) as [ur user]. cbn [fst snd] in *. destruct (Z.eqb_spec ur 0) as [UR|UR]; cbn [negb]; [|eexists; split; [reflexivity|]; split; [discriminate|intros _ d _ Q; congruence]].
  destruct (open name) as [d|] eqn:OP.
  - destruct (lookup_meaning o name d user [] CU ltac:(intros []) DB OP (DU d eq_refl)) as (r & ER & R & _ & PR & ALL). rewrite ER. cbn [bind]. eexists. split; [reflexivity|]. split.
    + intros Q. exists d. split; [reflexivity|]. split; [exact UR|]. apply PR. destruct R as [->|[->|[->| ->]]]; cbn in Q; try discriminate; auto.
    + intros M d' Q _. assert (d' = d) by congruence. subst d'. destruct (ALL M) as (N2 & _ & I1). destruct R as [->|[->|[->| ->]]]; cbn; try congruence; (split; [|auto]); (split; [try discriminate; intros _; apply PR; auto|]); try reflexivity. intros P. exfalso. apply I1; [reflexivity|exact P].
  - unfold Userdb_Model.user_lookup. rewrite DB, OP. cbn. eexists. split; [reflexivity|]. split; [discriminate|]. intros _ d' Q. congruence.
Qed.
End Users.

(** ** Examples *)
Definition toy (p s : cstr) : option cstr := Some (firstn 2 s ++ p ++ repeat "."%char (11 - length p))%list.
Definition books (name : cstr) : option dbm :=
  if streq name (lit "/etc/plain") then Some [(lit "ann", lit "Secret"); (lit "bob", (lit "pw" ++ NUL :: lit "junk")%list)]
  else if streq name (lit "/etc/hashed") then Some [(lit "ann", lit "absecret.....")]
  else if streq name (lit "/etc/keys") then Some [(lit "ann-b-pw", []); (lit "bob-Secret", [])]
  else None.
Definition asks (user p : string) : handle := mkHd (0, lit user) (0, Some (lit p)) 0 0 None.
Definition enough (_ : nat) : bool := true.
Notation auth := (fun args user p => authenticate toy books enough args (asks user p)).
Notation acct := (fun args user => acct_mgmt toy books enough args (asks user "")).
Example auth_example : auth [lit "db=/etc/plain"] "ann"%string "Secret"%string = Ok 0 /\ auth [lit "db=/etc/plain"] "ann"%string "secret"%string = Ok 7 /\ auth [lit "DB=/etc/plain"; lit "iCase"] "ann"%string "sEcret"%string = Ok 0 /\
  auth [lit "db=/etc/plain"] "cat"%string "Secret"%string = Ok 10 /\ auth [lit "db=/etc/hashed"; lit "crypt=crypt"] "ann"%string "secret"%string = Ok 0 /\ auth [lit "db=/etc/hashed"; lit "crypt=crypt"] "ann"%string "Secret"%string = Ok 7 /\
  auth [lit "db=/etc/keys"; lit "key_only"] "bob"%string "Secret"%string = Ok 0 /\ auth [lit "db=/etc/keys"; lit "key_only"] "bob"%string "pw"%string = Ok 7 /\ auth [lit "db=/etc/plain"; lit "db="] "ann"%string "Secret"%string = Ok 3 /\
  auth [lit "db=/etc/plain"; lit "use_first_pass"] "ann"%string "Secret"%string = Ok 21 /\ auth [lit "db=/etc/plain"; lit "try_first_pass"] "ann"%string "Secret"%string = Ok 0 /\
  acct [lit "db=/etc/plain"] "ann"%string = Ok 0 /\ acct [lit "db=/etc/plain"] "cat"%string = Ok 10 /\ acct [lit "db=/etc/keys"; lit "key_only"] "bob"%string = Ok 0.
Proof. repeat (split; [vm_compute; reflexivity|]). vm_compute. reflexivity. Qed.
Example auth_hypotheses : is_cstr (snd (u_user (asks "ann" "Secret"))) /\ (forall p, snd (u_talk (asks "ann" "Secret")) = Some p -> is_cstr p) /\ o_db (parse [lit "db=/etc/plain"]) = Some (lit "/etc/plain") /\ o_dump (parse [lit "db=/etc/plain"]) = false /\
  given (parse [lit "db=/etc/plain"]) (asks "ann" "Secret") (lit "Secret") /\ (forall i, enough i = true).
Proof.
  split; [vm_compute; intuition discriminate|]. split; [intros p Q; injection Q as <-; vm_compute; intuition discriminate|]. split; [reflexivity|]. split; [reflexivity|]. split; [|reflexivity]. split; [reflexivity|]. right. split; [left; split; reflexivity|split; reflexivity].
Qed.

(** ** What does not hold *)
(** With key_only the entry of the user ann-b lets ann in, and makes ann's account good. *)
Theorem own_entry_refuted : exists d name, books name = Some d /\ (forall e, In e d -> fst e <> lit "ann-b-pw" -> ~ exists rest, fst e = (lit "ann-" ++ rest)%list) /\
  auth [(lit "db=" ++ name)%list; lit "key_only"] "ann-b"%string "pw"%string = Ok 0 /\ auth [(lit "db=" ++ name)%list; lit "key_only"] "ann"%string "b-pw"%string = Ok 0 /\ acct [(lit "db=" ++ name)%list; lit "key_only"] "ann"%string = Ok 0.
Proof.
  do 2 eexists. split; [instantiate (2 := lit "/etc/keys"); reflexivity|]. split; [|repeat split; vm_compute; reflexivity]. intros e [<-|[<-|[]]] N; [exfalso; apply N; reflexivity|]. intros (r & Q). discriminate.
Qed.
(** A value of crypt= that is neither crypt nor none means plain text: the hash itself is the password then. *)
Theorem unknown_method_refused_refuted : auth [lit "db=/etc/hashed"; lit "crypt=md5"] "ann"%string "absecret....."%string = Ok 0 /\ auth [lit "db=/etc/hashed"; lit "crypt=none"] "ann"%string "absecret....."%string = Ok 0.
Proof. split; vm_compute; reflexivity. Qed.
(** What follows a NUL in the data is not looked at. *)
Theorem whole_data_compared_refuted : exists data, fetch [(lit "bob", data)] (lit "bob") = Some data /\ data <> lit "pw" /\ auth [lit "db=/etc/plain"] "bob"%string "pw"%string = Ok 0 /\ books (lit "/etc/plain") = Some [(lit "ann", lit "Secret"); (lit "bob", data)].
Proof. eexists. split; [reflexivity|]. split; [|split; [vm_compute; reflexivity|reflexivity]]. vm_compute. discriminate. Qed.
(** The account is checked without looking whether a database is named at all; the dump prints bytes as if they were strings. *)
Theorem account_defined_refuted : acct [lit "debug"] "ann"%string = UB /\ acct [lit "db=/etc/hashed"; lit "dump"] "ann"%string = UB.
Proof. split; vm_compute; reflexivity. Qed.

Print Assumptions userdb_options.
Print Assumptions userdb_authentication.
Print Assumptions userdb_account.
Print Assumptions own_entry_refuted.
Print Assumptions unknown_method_refused_refuted.
Print Assumptions whole_data_compared_refuted.
Print Assumptions account_defined_refuted.
