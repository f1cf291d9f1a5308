(** Theorems about pam_tty_audit. *)
From Coq Require Import String Ascii List Arith ZArith Bool Lia.
From Verif Require Import Base Num_Model Str_Model Str_Facts Opt_Model Opt_Facts Ttyaudit_Model.
Import ListNotations.

(** ** Which users *)
(** A number as strtoul reads it: white space, a sign, digits, nothing after them, at most 2^64 - 1; of which 32 bits are kept. *)
Definition number (s : cstr) (id : Z) : Prop := exists neg n, signed 10 s neg n [] /\ (n <= 18446744073709551615)%Z /\ id = ((if neg : bool then - n else n) mod 4294967296)%Z.
(** A pattern is a name pattern, or a range of uids: min:max, min: or :uid. *)
Inductive matches (E : env) (user : cstr) (uid : Z) : cstr -> Prop :=
| by_name : forall p, ~ In ":"%char p -> e_match E p user = true -> matches E user uid p
| by_range : forall a b lo hi, ~ In ":"%char a -> a <> [] -> b <> [] -> number a lo -> number b hi -> (lo <= uid <= hi)%Z -> matches E user uid (a ++ ":"%char :: b)
| by_min : forall a lo, ~ In ":"%char a -> a <> [] -> number a lo -> (lo <= uid)%Z -> matches E user uid (a ++ lit ":")
| by_uid : forall b, b <> [] -> number b uid -> matches E user uid (":"%char :: b).
(** The option [a] is for the user, and says enable or disable. *)
Definition says (E : env) (user : cstr) (uid : Z) (a : cstr) (c : command) : Prop :=
  exists v ws p, words [","%char] v ws /\ In p ws /\ matches E user uid p /\ ((a = lit "enable=" ++ v /\ c = CEnable) \/ (a = lit "disable=" ++ v /\ c = CDisable))%list.
(** The last option for the user decides. *)
Definition decided (E : env) (user : cstr) (uid : Z) (args : list cstr) (c : command) : Prop :=
  (exists x a y, args = (x ++ a :: y)%list /\ says E user uid a c /\ forall b c', In b y -> ~ says E user uid b c') \/ ((forall a c', In a args -> ~ says E user uid a c') /\ c = CNone).

Lemma uid_of_some : forall s id r, uid_of s = Some (id, r) <-> exists neg n, signed 10 s neg n r /\ (n <= 18446744073709551615)%Z /\ id = ((if neg : bool then - n else n) mod 4294967296)%Z.
Proof.
  intros s id r. unfold uid_of. destruct (sign (skip_spaces s)) as [neg s1] eqn:Sg. destruct (digits_in 10 s1 0 0) as [[v k] r'] eqn:D.
  change (2 ^ 32)%Z with 4294967296%Z. unfold ULONG_MAX. destruct k as [|k]; cbn [Nat.eqb orb].
  - split; [discriminate|]. intros (neg' & n & X & _). apply conv_signed in X; [|lia]. destruct X as (s2 & k & Q & D'). rewrite Sg in Q. injection Q as <- <-. rewrite D in D'. discriminate.
  - assert (X : signed 10 s neg v r') by (apply conv_signed; [lia|]; exists s1, k; auto).
    destruct (Z.ltb_spec 18446744073709551615 v) as [L|L].
    + split; [discriminate|]. intros (neg' & n & Y & B & _). destruct (signed_unique 10 s _ _ _ _ _ _ ltac:(lia) X Y) as (_ & -> & _). lia.
    + split; [intro Q; injection Q as <- <-; exists neg, v; auto|]. intros (neg' & n & Y & B & ->). destruct (signed_unique 10 s _ _ _ _ _ _ ltac:(lia) X Y) as (-> & -> & ->). reflexivity.
Qed.
Lemma uid_whole : forall s id, uid_of s = Some (id, []) <-> number s id.
Proof. intros s id. apply uid_of_some. Qed.
Lemma sp_not_colon : forall c, isspace c = true \/ (hex_val c < 10)%Z -> c <> ":"%char.
Proof. intros c [H|H] ->; [discriminate H|vm_compute in H; discriminate H]. Qed.
Lemma colon_split : forall (a x b y : list ascii), (a ++ ":"%char :: b)%list = (x ++ ":"%char :: y)%list -> ~ In ":"%char a -> ~ In ":"%char x -> a = x /\ b = y.
Proof.
  induction a as [|c a IH]; intros [|d x] b y Q Na Nx; cbn [app] in Q.
  - injection Q as ->. auto.
  - injection Q as Q _. exfalso. apply Nx. left. congruence.
  - injection Q as Q _. exfalso. apply Na. left. congruence.
  - injection Q as -> Q. destruct (IH x b y Q) as (-> & ->); [intro I; apply Na; right; exact I|intro I; apply Nx; right; exact I|auto].
Qed.
Lemma signed_before : forall a b neg n r, ~ In ":"%char a -> (signed 10 (a ++ ":"%char :: b) neg n (":"%char :: r) <-> signed 10 a neg n [] /\ r = b).
Proof.
  intros a b neg n r Na. split.
  - intros (sp & sg & ds & Q & A & G & (D0 & D & V) & _).
    assert (N : ~ In ":"%char (sp ++ sg ++ ds)).
    { intro I. rewrite !in_app_iff in I. destruct I as [I|[I|I]].
      - rewrite forallb_forall in A. apply (sp_not_colon _ (or_introl (A _ I))). reflexivity.
      - destruct G as [(_ & ->)|(_ & [->| ->])]; cbn in I; intuition discriminate.
      - apply (sp_not_colon _ (or_intror (D _ I))). reflexivity. }
    destruct (colon_split a (sp ++ sg ++ ds) b r) as (-> & ->); [rewrite Q, <- !app_assoc; reflexivity|exact Na|exact N|]. split; [|reflexivity]. exists sp, sg, ds. rewrite app_nil_r. repeat split; auto.
  - intros ((sp & sg & ds & Q & A & G & B & _) & ->). exists sp, sg, ds. rewrite app_nil_r in Q. rewrite Q, <- !app_assoc. repeat split; try apply B; auto. right. exists ":"%char, b. split; [reflexivity|]. vm_compute. discriminate.
Qed.
Lemma uid_before : forall a b id, ~ In ":"%char a -> ((exists c r, uid_of (a ++ ":"%char :: b) = Some (id, c :: r) /\ Ascii.eqb c ":"%char = true) <-> number a id).
Proof.
  intros a b id Na. split.
  - intros (c & r & U & C). apply Ascii.eqb_eq in C. subst c. apply uid_of_some in U. destruct U as (neg & n & X & B & I). apply signed_before in X; [|exact Na]. destruct X as (X & _). exists neg, n. auto.
  - intros (neg & n & X & B & I). exists ":"%char, b. split; [|reflexivity]. apply uid_of_some. exists neg, n. split; [apply signed_before; auto|auto].
Qed.
Lemma applies_iff : forall E user uid p, applies E user uid p = true <-> matches E user uid p.
Proof.
  intros E user uid p. unfold applies, parse_range. destruct (split_at ":"%char p) as [[a b]|] eqn:Sp.
  - apply split_at_some in Sp. destruct Sp as (-> & Na).
    assert (Inv : forall x y, (a ++ ":"%char :: b)%list = (x ++ ":"%char :: y)%list -> ~ In ":"%char x -> a = x /\ b = y).
    { intros x y Q Nx. apply (colon_split a x b y Q Na Nx). }
    assert (M : matches E user uid (a ++ ":"%char :: b) <-> (a <> [] /\ b <> [] /\ exists lo hi, number a lo /\ number b hi /\ (lo <= uid <= hi)%Z) \/ (a <> [] /\ b = [] /\ exists lo, number a lo /\ (lo <= uid)%Z) \/ (a = [] /\ b <> [] /\ number b uid)).
    { split.
      - intro M. inversion M as [q Nq Hq Q|x y lo hi Nx X0 Y0 Lo Hi H Q|x lo Nx X0 Lo H Q|y Y0 Hy Q].
        + exfalso. apply Nq. rewrite ?Q. subst. apply in_app_iff. right. left. reflexivity.
        + symmetry in Q. destruct (Inv x y Q Nx) as (-> & ->). left. repeat split; auto. exists lo, hi. auto.
        + symmetry in Q. change (lit ":") with [":"%char] in Q. destruct (Inv x [] Q Nx) as (-> & ->). right. left. repeat split; auto. exists lo. auto.
        + symmetry in Q. destruct (Inv [] y Q (fun H : In _ [] => H)) as (-> & ->). auto.
      - intros [(A0 & B0 & lo & hi & Lo & Hi & H)|[(A0 & -> & lo & Lo & H)|(-> & B0 & H)]]; [apply (by_range E user uid a b lo hi)|apply (by_min E user uid a lo)|apply by_uid]; assumption. }
    rewrite M. clear M Inv. destruct a as [|c a].
    + destruct b as [|d b].
      * split; [discriminate|]. intros [(X & _)|[(X & _)|(_ & X & _)]]; congruence.
      * destruct (uid_of (d :: b)) as [[id [|x r]]|] eqn:U.
        -- apply uid_whole in U. split.
           ++ intro Q. apply Z.eqb_eq in Q. subst id. right. right. repeat split; [discriminate|exact U].
           ++ intros [(X & _)|[(X & _)|(_ & _ & X)]]; try congruence. apply uid_whole in U. apply uid_whole in X. rewrite U in X. injection X as ->. apply Z.eqb_refl.
        -- split; [discriminate|]. intros [(X & _)|[(X & _)|(_ & _ & X)]]; try congruence. apply uid_whole in X. congruence.
        -- split; [discriminate|]. intros [(X & _)|[(X & _)|(_ & _ & X)]]; try congruence. apply uid_whole in X. congruence.
    + set (A := c :: a) in *. assert (A0 : A <> []) by discriminate. clearbody A. clear c a.
      destruct (uid_of (A ++ ":"%char :: b)) as [[lo [|x r]]|] eqn:U.
      1, 3: split; [discriminate|]; intros [(_ & _ & lo' & hi & Lo & _)|[(_ & _ & lo' & Lo & _)|(X & _)]]; try congruence; apply (uid_before A b lo' Na) in Lo; destruct Lo as (x & r & Q & _); congruence.
      destruct (Ascii.eqb x ":"%char) eqn:X.
      2: { split; [discriminate|]; intros [(_ & _ & lo' & hi & Lo & _)|[(_ & _ & lo' & Lo & _)|(Y & _)]]; try congruence; apply (uid_before A b lo' Na) in Lo; destruct Lo as (x' & r' & Q & X'); congruence. }
      assert (L : number A lo) by (apply (uid_before A b lo Na); exists x, r; auto).
      assert (Lu : forall lo', number A lo' -> lo' = lo) by (intros lo' L'; apply (uid_before A b lo' Na) in L'; destruct L' as (x' & r' & Q & _); congruence).
      destruct b as [|d b].
      * rewrite Z.leb_le. split; [intro H; right; left; repeat split; auto; exists lo; auto|]. intros [(_ & Y & _)|[(_ & _ & lo' & L' & H)|(Y & _)]]; try congruence. rewrite <- (Lu lo' L'). exact H.
      * destruct (uid_of (d :: b)) as [[hi [|y r']]|] eqn:V.
        -- apply uid_whole in V. rewrite andb_true_iff, !Z.leb_le. split.
           ++ intro H. left. repeat split; auto; [discriminate|]. exists lo, hi. auto.
           ++ intros [(_ & _ & lo' & hi' & L' & H' & H)|[(_ & Y & _)|(Y & _)]]; try congruence. rewrite <- (Lu lo' L'). apply uid_whole in V. apply uid_whole in H'. rewrite V in H'. injection H' as ->. exact H.
        -- split; [discriminate|]. intros [(_ & _ & lo' & hi' & L' & H' & H)|[(_ & Y & _)|(Y & _)]]; try congruence. apply uid_whole in H'. congruence.
        -- split; [discriminate|]. intros [(_ & _ & lo' & hi' & L' & H' & H)|[(_ & Y & _)|(Y & _)]]; try congruence. apply uid_whole in H'. congruence.
  - apply split_at_none in Sp. split; [intro H; apply by_name; assumption|]. intro M. inversion M as [q Nq Hq|x y lo hi _ _ _ _ _ _ Q|x lo _ _ _ _ Q|y _ _ Q]; [exact Hq|exfalso; apply Sp; try rewrite <- Q..].
    + apply in_app_iff. right. left. reflexivity.
    + apply in_app_iff. right. left. reflexivity.
    + left. reflexivity.
Qed.
Lemma same_iff : forall a b, same a b = true <-> a = b.
Proof. intros [] []; cbn; intuition congruence. Qed.
Lemma patterns_iff : forall E user uid this toks c, patterns E user uid this toks c = if existsb (applies E user uid) toks then this else c.
Proof.
  intros E user uid this. induction toks as [|t toks IH]; intro c; [reflexivity|]. cbn [patterns existsb]. destruct (same c this) eqn:Sm.
  - apply same_iff in Sm. subst c. destruct (applies E user uid t || existsb (applies E user uid) toks); reflexivity.
  - rewrite IH. destruct (applies E user uid t); cbn [orb]; [|reflexivity]. destruct (existsb (applies E user uid) toks); reflexivity.
Qed.
Lemma tty_fold : forall E user uid args, decided E user uid args (o_command (fold_left (tty_arg E user uid) args (mkOpts CNone false false))) /\
  (o_only (fold_left (tty_arg E user uid) args (mkOpts CNone false false)) = true <-> In (lit "open_only") args) /\ (o_passwd (fold_left (tty_arg E user uid) args (mkOpts CNone false false)) = true <-> In (lit "log_passwd") args).
Proof.
  intros E user uid args. induction args as [|a args (D & O & P)] using rev_ind.
  - split; [right; split; [intros a c []|reflexivity]|]. split; (split; [discriminate|intros []]).
  - rewrite fold_left_app. cbn [fold_left]. set (o := fold_left (tty_arg E user uid) args (mkOpts CNone false false)) in *. clearbody o.
    assert (Keep : (forall c, ~ says E user uid a c) -> decided E user uid (args ++ [a]) (o_command o)).
    { intro N. destruct D as [(x & b & y & -> & Sy & H)|(H & ->)].
      - left. exists x, b, (y ++ [a])%list. split; [rewrite <- app_assoc; reflexivity|]. split; [exact Sy|]. intros b' c' I. apply in_app_iff in I. destruct I as [I|[<-|[]]]; [apply H; exact I|apply N].
      - right. split; [|reflexivity]. intros b' c' I. apply in_app_iff in I. destruct I as [I|[<-|[]]]; [apply H; exact I|apply N]. }
    assert (Says : forall c, says E user uid a c -> decided E user uid (args ++ [a]) c).
    { intros c Sy. left. exists args, a, []. split; [reflexivity|]. split; [exact Sy|intros b c' []]. }
    assert (In1 : forall k, a <> k -> (In k (args ++ [a]) <-> In k args)) by (intros k N; rewrite in_app_iff; cbn [In]; intuition congruence).
    assert (Pats : forall v this, (this = CEnable /\ a = lit "enable=" ++ v \/ this = CDisable /\ a = lit "disable=" ++ v)%list -> decided E user uid (args ++ [a]) (patterns E user uid this (strtoks [","%char] v) (o_command o))).
    { intros v this H. rewrite patterns_iff. destruct (existsb (applies E user uid) (strtoks [","%char] v)) eqn:Ex.
      - apply Says. apply existsb_exists in Ex. destruct Ex as (p & I & A). apply applies_iff in A. exists v, (strtoks [","%char] v), p. split; [apply strtoks_words|]. split; [exact I|]. split; [exact A|]. destruct H as [(-> & ->)|(-> & ->)]; auto.
      - apply Keep. intros c (v' & ws & p & W & I & M & Q). apply words_strtoks in W. subst ws. assert (v' = v).
        { destruct H as [(_ & Ha)|(_ & Ha)], Q as [(Hb & _)|(Hb & _)]; rewrite Ha in Hb; try discriminate Hb; apply app_inv_head in Hb; auto. }
        subst v'. assert (X : existsb (applies E user uid) (strtoks [","%char] v) = true) by (apply existsb_exists; exists p; split; [exact I|apply applies_iff; exact M]). congruence. }
    unfold tty_arg. destruct (skip_prefix (lit "enable=") a) as [v|] eqn:Q1.
    { apply skip_prefix_some in Q1. cbn [o_command o_only o_passwd]. rewrite !In1 by (rewrite Q1; discriminate). split; [apply Pats; auto|auto]. }
    destruct (skip_prefix (lit "disable=") a) as [v|] eqn:Q2.
    { apply skip_prefix_some in Q2. cbn [o_command o_only o_passwd]. rewrite !In1 by (rewrite Q2; discriminate). split; [apply Pats; auto|auto]. }
    apply skip_prefix_none in Q1. apply skip_prefix_none in Q2.
    assert (N : forall c, ~ says E user uid a c) by (intros c (v & ws & p & _ & _ & _ & [(Q & _)|(Q & _)]); [apply Q1|apply Q2]; exists v; exact Q).
    destruct (streq a (lit "open_only")) eqn:Q3.
    { apply streq_eq in Q3. cbn [o_command o_only o_passwd]. split; [apply Keep; exact N|]. split; [|rewrite In1 by (rewrite Q3; discriminate); exact P]. split; [intros _; apply in_app_iff; right; left; exact Q3|auto]. }
    assert (N3 : a <> lit "open_only") by (intro X; rewrite X, streq_refl in Q3; discriminate).
    destruct (streq a (lit "log_passwd")) eqn:Q4.
    { apply streq_eq in Q4. cbn [o_command o_only o_passwd]. split; [apply Keep; exact N|]. split; [rewrite In1 by exact N3; exact O|]. split; [intros _; apply in_app_iff; right; left; exact Q4|auto]. }
    assert (N4 : a <> lit "log_passwd") by (intro X; rewrite X, streq_refl in Q4; discriminate).
    split; [apply Keep; exact N|]. rewrite !In1 by assumption. auto.
Qed.
Lemma decided_unique : forall E user uid args c c', decided E user uid args c -> decided E user uid args c' -> c = c'.
Proof.
  intros E user uid args c c' [(x & a & y & -> & Sa & Ha)|(H & ->)] [(x' & a' & y' & Q & Sa' & Ha')|(H' & ->)].
  - assert (a = a').
    { revert x' Q. induction x as [|b x IH]; intros [|b' x'] Q; cbn [app] in Q; injection Q as -> Q.
      - reflexivity.
      - exfalso. apply (Ha a' c'); [rewrite Q; apply in_app_iff; right; left; reflexivity|exact Sa'].
      - exfalso. apply (Ha' a c); [rewrite <- Q; apply in_app_iff; right; left; reflexivity|exact Sa].
      - apply (IH x' Q). }
    subst a'. destruct Sa as (v & ws & p & _ & _ & _ & Q1), Sa' as (v' & ws' & p' & _ & _ & _ & Q2). destruct Q1 as [(-> & ->)|(-> & ->)], Q2 as [(Q2 & ->)|(Q2 & ->)]; try reflexivity; discriminate Q2.
  - exfalso. apply (H' a c); [apply in_app_iff; right; left; reflexivity|exact Sa].
  - exfalso. apply (H a' c'); [rewrite Q; apply in_app_iff; right; left; reflexivity|exact Sa'].
  - reflexivity.
Qed.
Lemma tty_opts : forall E user uid args c, decided E user uid args c -> exists only pw, fold_left (tty_arg E user uid) args (mkOpts CNone false false) = mkOpts c only pw /\ (only = true <-> In (lit "open_only") args) /\ (pw = true <-> In (lit "log_passwd") args).
Proof.
  intros E user uid args c D. destruct (tty_fold E user uid args) as (D' & O & P). destruct (fold_left (tty_arg E user uid) args (mkOpts CNone false false)) as [c' only pw]. cbn [o_command o_only o_passwd] in *.
  exists only, pw. rewrite (decided_unique _ _ _ _ _ _ D D'). auto.
Qed.

(** ** Theorems *)
(** The last option that is for the user decides; without one nothing is changed. *)
Theorem ttyaudit_status : forall E args s r s' user uid c, e_get_user E = (PAM_SUCCESS, user) -> e_uid E user = Some uid -> decided E user uid args c -> open_session E args s = (r, s') ->
  (c = CNone -> r = PAM_SUCCESS /\ s' = s) /\
  (c <> CNone -> r = PAM_SUCCESS -> enabled (kernel s') = (match c with CEnable => 1 | _ => 0 end)%Z /\ (In (lit "log_passwd") args -> log_passwd (kernel s') = 1%Z) /\ (~ In (lit "log_passwd") args -> log_passwd (kernel s') = 0%Z)) /\
  (r <> PAM_SUCCESS -> kernel s' = kernel s) /\
  (e_sock E = Works -> e_get E = true -> e_data E = PAM_SUCCESS -> e_setok E = true -> r = PAM_SUCCESS).
Proof.
  intros E args s r s' user uid c G U D H. unfold open_session in H. rewrite G, U in H. cbn [negb Z.eqb] in H. change (negb (PAM_SUCCESS =? PAM_SUCCESS)%Z) with false in H. cbv iota in H.
  destruct (tty_opts E user uid args c D) as (only & pw & Fo & O & P). rewrite Fo in H. cbn [o_command o_only o_passwd] in H.
  assert (Main : c <> CNone -> (match e_sock E with
               | NotSupported => (PAM_IGNORE, s)
               | Fails => (PAM_SESSION_ERR, s)
               | Works =>
                   if negb (e_get E) then (PAM_SESSION_ERR, s)
                   else
                     let old := kernel s in
                     let new := mkStatus (if same c CEnable then 1 else 0) (if pw then 1 else 0) in
                     if (enabled old =? enabled new)%Z && (log_passwd old =? log_passwd new)%Z then (PAM_SUCCESS, s)
                     else if negb only && negb (e_data E =? PAM_SUCCESS)%Z then (PAM_SESSION_ERR, s)
                     else
                       let s1 := if only then s else mkState old (Some old) in
                       if e_setok E then (PAM_SUCCESS, mkState new (saved s1)) else (PAM_SESSION_ERR, s1)
               end) = (r, s')) by (intro N; destruct c; [congruence|exact H|exact H]).
  split; [|split; [|split]].
  - intros ->. injection H as <- <-. auto.
  - intros N R. subst r. specialize (Main N). destruct (e_sock E); try discriminate. destruct (negb (e_get E)); [discriminate|]. cbv zeta in Main. cbn [enabled log_passwd] in Main.
    assert (V : (if same c CEnable then 1 else 0)%Z = (match c with CEnable => 1 | _ => 0 end)%Z) by (destruct c; reflexivity). rewrite V in Main.
    assert (W : (In (lit "log_passwd") args -> (if pw then 1 else 0)%Z = 1%Z) /\ (~ In (lit "log_passwd") args -> (if pw then 1 else 0)%Z = 0%Z)).
    { split; intro I; [apply P in I; rewrite I; reflexivity|]. destruct pw; [exfalso; apply I; apply P; reflexivity|reflexivity]. }
    destruct ((enabled (kernel s) =? (match c with CEnable => 1 | _ => 0 end))%Z && (log_passwd (kernel s) =? (if pw then 1 else 0))%Z) eqn:Eq.
    + injection Main as <-. apply andb_true_iff in Eq. destruct Eq as (E1 & E2). apply Z.eqb_eq in E1. apply Z.eqb_eq in E2. rewrite E1, E2. auto.
    + destruct (negb only && negb (e_data E =? PAM_SUCCESS)%Z); [discriminate|]. destruct (e_setok E); [|discriminate]. injection Main as <-. auto.
  - intro R. destruct c; [injection H as <- <-; congruence|..]; specialize (Main ltac:(discriminate)); destruct (e_sock E); try (injection Main as <- <-; reflexivity); (destruct (negb (e_get E)); [injection Main as <- <-; reflexivity|]); cbv zeta in Main;
      (destruct ((enabled (kernel s) =? _)%Z && _); [injection Main as <- <-; congruence|]); (destruct (negb only && negb (e_data E =? PAM_SUCCESS)%Z); [injection Main as <- <-; reflexivity|]);
      (destruct (e_setok E); [injection Main as <- <-; congruence|]); injection Main as <- <-; destruct only; reflexivity.
  - intros S1 S2 S3 S4. destruct c; [injection H as <- <-; reflexivity|..]; specialize (Main ltac:(discriminate)); rewrite S1, S2, S3, S4 in Main; cbn [negb] in Main; rewrite andb_false_r in Main; cbv zeta in Main;
      (destruct ((enabled (kernel s) =? _)%Z && _); injection Main as <- <-; reflexivity).
Qed.

(** Closing the session brings back the status from before it was opened, unless open_only is given, in which case it stays; this holds
    also when opening has failed. *)
Theorem ttyaudit_restored : forall E E' args s r s' r' s'', saved s = None -> open_session E args s = (r, s') -> close_session E' s' = (r', s'') -> r' = PAM_SUCCESS ->
  (~ In (lit "open_only") args -> kernel s'' = kernel s) /\ (In (lit "open_only") args -> s'' = s').
Proof.
  intros E E' args s r s' r' s'' Sv H C R'.
  assert (X : (s' = s) \/ (In (lit "open_only") args /\ saved s' = None) \/ (~ In (lit "open_only") args /\ saved s' = Some (kernel s))).
  { unfold open_session in H. destruct (e_get_user E) as [rg user]. destruct (negb (rg =? PAM_SUCCESS)%Z); [injection H as <- <-; auto|]. destruct (e_uid E user) as [uid|]; [|injection H as <- <-; auto].
    destruct (tty_fold E user uid args) as (_ & O & _). destruct (fold_left (tty_arg E user uid) args (mkOpts CNone false false)) as [c only pw]. cbn [o_command o_only o_passwd] in *.
    destruct c; [injection H as <- <-; auto|..]; (destruct (e_sock E); [|injection H as <- <-; auto..]); (destruct (negb (e_get E)); [injection H as <- <-; auto|]); cbv zeta in H;
      (destruct ((enabled (kernel s) =? _)%Z && _); [injection H as <- <-; auto|]); (destruct (negb only && negb (e_data E =? PAM_SUCCESS)%Z); [injection H as <- <-; auto|]); right;
      destruct only; [left; split; [apply O; reflexivity|]|right; split; [intro I; apply O in I; discriminate|]|left; split; [apply O; reflexivity|]|right; split; [intro I; apply O in I; discriminate|]];
      destruct (e_setok E); injection H as <- <-; try exact Sv; reflexivity. }
  unfold close_session in C. destruct X as [->|[(O & S1)|(O & S1)]].
  - rewrite Sv in C. injection C as <- <-. auto.
  - rewrite S1 in C. injection C as <- <-. split; [contradiction|auto].
  - rewrite S1 in C. destruct (match e_sock E' with Works => true | _ => false end && e_setok E'); injection C as <- <-; [|discriminate]. split; [auto|contradiction].
Qed.

(** Without a user of the session, or when the kernel has no audit, nothing is changed. *)
Theorem ttyaudit_untouched : forall E args s r s', open_session E args s = (r, s') ->
  (fst (e_get_user E) <> PAM_SUCCESS \/ e_uid E (snd (e_get_user E)) = None -> r = PAM_SESSION_ERR /\ s' = s) /\ (e_sock E <> Works -> s' = s) /\ (e_get E = false -> s' = s) /\ (e_sock E = NotSupported -> r = PAM_SUCCESS \/ r = PAM_IGNORE \/ r = PAM_SESSION_ERR /\ (fst (e_get_user E) <> PAM_SUCCESS \/ e_uid E (snd (e_get_user E)) = None)).
Proof.
  intros E args s r s' H. unfold open_session in H. destruct (e_get_user E) as [rg user]. cbn [fst snd]. destruct (Z.eqb_spec rg PAM_SUCCESS) as [->|R]; cbn [negb] in H; [|injection H as <- <-; auto 8].
  destruct (e_uid E user) as [uid|]; [|injection H as <- <-; auto 8]. split; [intros [N|N]; [congruence|discriminate]|].
  destruct (o_command (fold_left (tty_arg E user uid) args (mkOpts CNone false false))); [injection H as <- <-; auto|..]; (destruct (e_sock E); [|injection H as <- <-; (repeat split; auto; discriminate)..]); split; try congruence; (split; [intro G; rewrite G in H; injection H as <- <-; reflexivity|discriminate]).
Qed.

(** Only 32 bits of a number are kept: 4294967296 is the uid of root. *)
Theorem ttyaudit_large_uid_refuted : exists E args s, e_get_user E = (PAM_SUCCESS, lit "root") /\ e_uid E (lit "root") = Some 0%Z /\ args = [lit "enable=:4294967296"] /\ enabled (kernel s) = 0%Z /\
  exists s', open_session E args s = (PAM_SUCCESS, s') /\ enabled (kernel s') = 1%Z.
Proof.
  exists (mkEnv (PAM_SUCCESS, lit "root") (fun _ => Some 0%Z) (fun _ _ => false) Works true PAM_SUCCESS true), [lit "enable=:4294967296"], (mkState (mkStatus 0 0) None). repeat split.
  eexists. split; vm_compute; reflexivity.
Qed.

(** ** Examples *)
Definition ex_env : env := mkEnv (PAM_SUCCESS, lit "joe") (fun u => if streq u (lit "joe") then Some 1000%Z else None) (fun p u => streq p (lit "*") || streq p u) Works true PAM_SUCCESS true.
Definition ex_args : list cstr := [lit "disable=*"; lit "enable=:0,500:2000"; lit "disable=bob"].
Example status_example : decided ex_env (lit "joe") 1000 ex_args CEnable /\ open_session ex_env ex_args (mkState (mkStatus 0 0) None) = (PAM_SUCCESS, mkState (mkStatus 1 0) (Some (mkStatus 0 0))).
Proof.
  split; [|vm_compute; reflexivity]. pose proof (proj1 (tty_fold ex_env (lit "joe") 1000 ex_args)) as D.
  replace (o_command (fold_left (tty_arg ex_env (lit "joe") 1000) ex_args (mkOpts CNone false false))) with CEnable in D by (vm_compute; reflexivity). exact D.
Qed.
Example restored_example : close_session ex_env (mkState (mkStatus 1 0) (Some (mkStatus 0 0))) = (PAM_SUCCESS, mkState (mkStatus 0 0) (Some (mkStatus 0 0))) /\
  open_session ex_env (lit "open_only" :: ex_args) (mkState (mkStatus 0 0) None) = (PAM_SUCCESS, mkState (mkStatus 1 0) None).
Proof. vm_compute. auto. Qed.
Example untouched_example : open_session (mkEnv (PAM_SUCCESS, lit "joe") (fun u => Some 1000%Z) (fun p u => true) NotSupported true PAM_SUCCESS true) ex_args (mkState (mkStatus 0 0) None) = (PAM_IGNORE, mkState (mkStatus 0 0) None).
Proof. vm_compute. reflexivity. Qed.

Print Assumptions ttyaudit_status.
Print Assumptions ttyaudit_restored.
Print Assumptions ttyaudit_untouched.
Print Assumptions ttyaudit_large_uid_refuted.
