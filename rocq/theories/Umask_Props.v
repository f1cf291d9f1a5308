(** C67: pam_umask. *)
From Coq Require Import String Ascii List Arith ZArith Bool Lia.
From Verif Require Import Base Num_Model Str_Model Str_Facts Opt_Model Opt_Facts Umask_Model.
Import ListNotations.
Local Open Scope Z_scope.

(** ** The spec *)

(** [a] is the key [k] in any case, and then [v]. *)
Definition ikey (k a v : cstr) : Prop := exists k', a = (k' ++ v)%list /\ map tolower k' = map tolower k.
(** The number at the start of a text, 0 if there is none. *)
Definition number (b : Z) (s : cstr) (v : Z) : Prop :=
  (exists neg n rest, signed b s neg n rest /\ v = long_of neg n) \/ ((forall neg n rest, ~ signed b s neg n rest) /\ v = 0).

(** The mask text in force: the last umask= option, or UMASK in /etc/login.defs, or UMASK in /etc/default/login. *)
Definition mask_option (args : list cstr) (v : cstr) : Prop :=
  exists a x b, args = (a ++ x :: b)%list /\ ikey (lit "umask=") x v /\ forall y w, In y b -> ~ ikey (lit "umask=") y w.
Definition no_mask_option (args : list cstr) : Prop := forall y w, In y args -> ~ ikey (lit "umask=") y w.
Inductive configured (E : env) (args : list cstr) : option cstr -> Prop :=
| c_option : forall v, mask_option args v -> configured E args (Some v)
| c_defs : forall v, no_mask_option args -> e_defs E = Some v -> configured E args (Some v)
| c_conf : no_mask_option args -> e_defs E = None -> configured E args (e_conf E).
(** The mask it makes of the one there was. *)
Inductive base (E : env) (args : list cstr) (mask : Z) : Z -> Prop :=
| b_set : forall v neg n rest, configured E args (Some v) -> signed 8 v neg n rest -> base E args mask (ulong neg n mod 512)
| b_bad : forall v, configured E args (Some v) -> (forall neg n rest, ~ signed 8 v neg n rest) -> base E args mask mask
| b_none : configured E args None -> base E args mask mask.

(** User private groups: asked for by the last option that says so or by default, and the user is not root and has a group of the same name. *)
Definition word_is (k : string) (a : cstr) : Prop := map tolower a = lit k.
Inductive wanted (E : env) (args : list cstr) : bool -> Prop :=
| w_on : forall a x b, args = (a ++ x :: b)%list -> word_is "usergroups" x -> (forall y, In y b -> ~ word_is "nousergroups" y) -> wanted E args true
| w_off : forall a x b, args = (a ++ x :: b)%list -> word_is "nousergroups" x -> (forall y, In y b -> ~ word_is "usergroups" y) -> wanted E args false
| w_default : (forall y, In y args -> ~ word_is "usergroups" y /\ ~ word_is "nousergroups" y) -> wanted E args (e_groups E).
Definition private (p : pw) : Prop := p_uid p <> 0 /\ p_group p = Some (p_name p).
(** Then the digit for the group becomes that for the owner. *)
Definition shared (E : env) (args : list cstr) (p : pw) (m m' : Z) : Prop :=
  (wanted E args true /\ private p /\ m' = 72 * (m / 64) + m mod 8) \/ ((wanted E args false \/ ~ private p) /\ m' = m).

(** What one field of GECOS does, and all of them in turn. *)
Inductive item (f : cstr) : option Z -> list effect -> Prop :=
| i_mask : forall s v, ikey (lit "umask=") f s -> number 8 s v -> item f (Some (v mod 512)) []
| i_nice : forall s v, ikey (lit "pri=") f s -> number 10 s v -> item f None [ENice v]
| i_size : forall s v, ikey (lit "ulimit=") f s -> number 10 s v -> LONG_MIN <= 512 * v <= LONG_MAX -> item f None [EFsize (512 * v)]
| i_none : (forall s, ~ ikey (lit "umask=") f s) -> (forall s, ~ ikey (lit "pri=") f s) -> (forall s, ~ ikey (lit "ulimit=") f s) -> item f None [].
Inductive items : list cstr -> Z -> Z -> list effect -> Prop :=
| is_nil : forall m, items [] m m []
| is_cons : forall f l m o m' fx fx', item f o fx -> items l (match o with Some x => x | None => m end) m' fx' -> items (f :: l) m m' (fx ++ fx').

(** ** Facts about texts *)

Lemma ikey_iff : forall k a v, skip_iprefix k a = Some v <-> ikey k a v.
Proof.
  induction k as [|x k IH]; intros a v; cbn [skip_iprefix].
  - split; [injection 1 as ->; exists []; auto|]. intros (k' & -> & E). destruct k'; [reflexivity|discriminate].
  - destruct a as [|y a].
    + split; [discriminate|]. intros (k' & E & M). symmetry in E. apply app_eq_nil in E. destruct E as (-> & _). discriminate.
    + destruct (Ascii.eqb_spec (tolower x) (tolower y)) as [E|N].
      * rewrite IH. split.
        -- intros (k' & -> & M). exists (y :: k'). split; [reflexivity|]. cbn [map]. rewrite M, E. reflexivity.
        -- intros (k' & X & M). destruct k' as [|z k']; [discriminate|]. cbn [app map] in *. injection X as -> ->. exists k'. split; [reflexivity|]. congruence.
      * split; [discriminate|]. intros (k' & X & M). destruct k' as [|z k']; [discriminate|]. cbn [app map] in *. injection X as -> ->. congruence.
Qed.
Lemma ikey_none : forall k a, skip_iprefix k a = None -> forall v, ~ ikey k a v.
Proof. intros k a H v X. apply ikey_iff in X. congruence. Qed.

Lemma strtol8_number : forall s, number 8 s (strtol8 s).
Proof.
  intro s. assert (B : 0 < 8 <= 10) by lia. unfold strtol8. destruct (sign (skip_spaces s)) as [neg s1] eqn:SG. destruct (digits_in 8 s1 0 0) as [[n k] r] eqn:D. rewrite clamp_long. destruct k as [|k].
  - right. split.
    + intros neg' n' rest X. apply conv_signed in X; [|exact B]. destruct X as (s2 & k & SG' & D'). rewrite SG in SG'. injection SG' as <- <-. rewrite D in D'. discriminate.
    + destruct (digits_in_spec 8 s1 0 0) as (ds & r' & _ & _ & _ & X). rewrite D in X. injection X as -> X _. cbn in X. destruct ds; [|discriminate]. cbn. destruct neg; reflexivity.
  - left. exists neg, n, r. split; [|reflexivity]. apply conv_signed; [exact B|]. exists s1, k. auto.
Qed.
Lemma strtol_number : forall s, number 10 s (fst (strtol s)).
Proof.
  intro s. destruct (strtol s) as [v [rest|]] eqn:S0; cbn [fst].
  - apply strtol_some in S0. destruct S0 as (neg & n & S0 & ->). left. exists neg, n, rest. auto.
  - apply strtol_none in S0. destruct S0 as (-> & S0). right. auto.
Qed.
Lemma number_unique : forall b s v w, 0 < b <= 10 -> number b s v -> number b s w -> v = w.
Proof.
  intros b s v w B [(neg & n & r & S0 & ->)|(N & ->)] [(neg' & n' & r' & S1 & ->)|(N' & ->)].
  - destruct (signed_unique b _ _ _ _ _ _ _ B S0 S1) as (-> & -> & _). reflexivity.
  - destruct (N' _ _ _ S0).
  - destruct (N _ _ _ S1).
  - reflexivity.
Qed.

Lemma nine_bits : forall v, Z.land v 511 = v mod 512.
Proof. intro v. change 511 with (Z.ones 9). rewrite Z.land_ones by lia. reflexivity. Qed.

(** ** The options *)

Lemma word_cases : forall a, parse_option a = parse_option a ->
  forall o, (exists s, ikey (lit "umask=") a s /\ parse_option a o = mkOpts (o_groups o) (Some s) /\ ~ word_is "usergroups" a /\ ~ word_is "nousergroups" a) \/
    ((forall s, ~ ikey (lit "umask=") a s) /\
     ((word_is "usergroups" a /\ parse_option a o = mkOpts true (o_umask o)) \/ (word_is "nousergroups" a /\ parse_option a o = mkOpts false (o_umask o)) \/
      (~ word_is "usergroups" a /\ ~ word_is "nousergroups" a /\ parse_option a o = o))).
Proof.
  intros a _ o. unfold parse_option, word_is. destruct a as [|c a0]; [right; split; [intros s (k & E & M); symmetry in E; apply app_eq_nil in E; destruct E as (-> & _); discriminate|right; right; repeat split; discriminate]|].
  set (a := c :: a0).
  destruct (caseeq a (lit "debug")) eqn:D.
  { apply caseeq_iff in D. right. split.
    - intros s (k & E & M). rewrite E, map_app, M in D. discriminate.
    - right. right. rewrite D. repeat split; discriminate. }
  destruct (skip_iprefix (lit "umask=") a) as [s|] eqn:SK.
  { left. apply ikey_iff in SK. exists s. split; [exact SK|]. split; [reflexivity|]. destruct SK as (k & -> & M). rewrite map_app, M. split; discriminate. }
  right. split; [apply ikey_none; exact SK|]. destruct (caseeq a (lit "usergroups")) eqn:U; [left; apply caseeq_iff in U; split; [exact U|reflexivity]|]. destruct (caseeq a (lit "nousergroups")) eqn:V; [right; left; apply caseeq_iff in V; split; [exact V|reflexivity]|].
  right. right. assert (W : forall k, caseeq a k = false -> map tolower a <> map tolower k) by (intros k F X; apply caseeq_iff in X; congruence). split; [exact (W _ U)|]. split; [exact (W _ V)|reflexivity].
Qed.

Lemma fold_options : forall args o, let p := fold_left (fun o a => parse_option a o) args o in
  ((no_mask_option args /\ o_umask p = o_umask o) \/ exists v, mask_option args v /\ o_umask p = Some v) /\
  ((o_groups p = true /\ exists a x b, args = (a ++ x :: b)%list /\ word_is "usergroups" x /\ (forall y, In y b -> ~ word_is "nousergroups" y)) \/
   (o_groups p = false /\ exists a x b, args = (a ++ x :: b)%list /\ word_is "nousergroups" x /\ (forall y, In y b -> ~ word_is "usergroups" y)) \/
   (o_groups p = o_groups o /\ forall y, In y args -> ~ word_is "usergroups" y /\ ~ word_is "nousergroups" y)).
Proof.
  induction args as [|a args IH]; intro o; cbn [fold_left].
  - split; [left; split; [intros y w []|reflexivity]|]. right. right. split; [reflexivity|]. intros y [].
  - specialize (IH (parse_option a o)). cbv zeta in IH |- *. destruct IH as (A & B). destruct (word_cases a eq_refl o) as [(s & K & E & N1 & N2)|(N & C)].
    + rewrite E in A, B. cbn [o_umask o_groups] in A, B. rewrite E. split.
      * right. destruct A as [(NM & ->)|(v & (x & y & z & -> & M) & ->)]; [exists s; split; [exists [], a, args; auto|reflexivity]|]. exists v. split; [exists (a :: x), y, z; auto|reflexivity].
      * destruct B as [(B & x & y & z & -> & M)|[(B & x & y & z & -> & M)|(B & M)]]; [left; split; [exact B|]; exists (a :: x), y, z; auto|right; left; split; [exact B|]; exists (a :: x), y, z; auto|].
        right. right. split; [exact B|]. intros y [<-|I]; [auto|apply M; exact I].
    + assert (AA : o_umask (parse_option a o) = o_umask o) by (destruct C as [(_ & ->)|[(_ & ->)|(_ & _ & ->)]]; reflexivity). split.
      * destruct A as [(NM & ->)|(v & (x & y & z & -> & M) & ->)]; [left; split; [|exact AA]; intros y w [<-|I]; [apply N|apply NM; exact I]|]. right. exists v. split; [exists (a :: x), y, z; auto|reflexivity].
      * destruct B as [(B & x & y & z & -> & M)|[(B & x & y & z & -> & M)|(B & M)]]; [left; split; [exact B|]; exists (a :: x), y, z; auto|right; left; split; [exact B|]; exists (a :: x), y, z; auto|].
        destruct C as [(W & E)|[(W & E)|(W1 & W2 & E)]]; rewrite E in B |- *; cbn [o_groups] in B.
        -- left. split; [exact B|]. exists [], a, args. split; [reflexivity|]. split; [exact W|]. intros y I. apply M. exact I.
        -- right. left. split; [exact B|]. exists [], a, args. split; [reflexivity|]. split; [exact W|]. intros y I. apply M. exact I.
        -- right. right. split; [exact B|]. intros y [<-|I]; [auto|apply M; exact I].
Qed.

Lemma ikey_unique : forall k a v w, ikey k a v -> ikey k a w -> v = w.
Proof. intros k a v w A B. apply ikey_iff in A, B. congruence. Qed.
Lemma mask_option_unique : forall args v w, mask_option args v -> mask_option args w -> v = w.
Proof.
  intros args v w (a & x & b & -> & K & N) (a' & x' & b' & E & K' & N'). revert a' E. induction a as [|y a IH]; intros a' E.
  - destruct a' as [|z a']; cbn [app] in E; injection E as E1 E2; [subst x'; eapply ikey_unique; eassumption|]. subst b. exfalso. apply (N x' w); [apply in_or_app; right; left; reflexivity|exact K'].
  - destruct a' as [|z a']; cbn [app] in E; injection E as E1 E2; [|apply (IH a'); exact E2]. subst b'. exfalso. apply (N' x v); [apply in_or_app; right; left; reflexivity|exact K].
Qed.
Lemma no_mask_not : forall args v, no_mask_option args -> ~ mask_option args v.
Proof. intros args v N (a & x & b & -> & K & _). apply (N x v); [apply in_or_app; right; left; reflexivity|exact K]. Qed.

Lemma configured_iff : forall E args v, o_umask (get_options E args) = v <-> configured E args v.
Proof.
  intros E args v. destruct (fold_options args (mkOpts (e_groups E) None)) as (A & _). cbv zeta in A. unfold get_options. cbv zeta. cbn [o_umask] in A.
  destruct (o_umask (fold_left (fun o a => parse_option a o) args (mkOpts (e_groups E) None))) as [t|] eqn:T.
  - destruct A as [(_ & X)|(w & M & X)]; [discriminate|]. injection X as <-. rewrite T. split; [intros <-; apply c_option; exact M|].
    intros [u M'|u N|N]; [f_equal; eapply mask_option_unique; eassumption|destruct (no_mask_not _ _ N M)|destruct (no_mask_not _ _ N M)].
  - destruct A as [(N & _)|(w & M & X)]; [|discriminate]. cbn [o_umask]. split.
    + intros <-. destruct (e_defs E) as [u|] eqn:D; [apply c_defs; assumption|apply c_conf; assumption].
    + intros [u M|u _ D|_ D]; [destruct (no_mask_not _ _ N M)|rewrite D; reflexivity|rewrite D; reflexivity].
Qed.

Lemma word_clash : forall x, word_is "usergroups" x -> word_is "nousergroups" x -> False.
Proof. intros x A B. unfold word_is in *. rewrite A in B. discriminate. Qed.
Lemma wanted_unique : forall E args v w, wanted E args v -> wanted E args w -> v = w.
Proof.
  assert (G : forall (args : list cstr) a x b a' x' b', args = (a ++ x :: b)%list -> args = (a' ++ x' :: b')%list -> word_is "usergroups" x -> word_is "nousergroups" x' -> (forall y, In y b -> ~ word_is "nousergroups" y) -> (forall y, In y b' -> ~ word_is "usergroups" y) -> False).
  { intros l a. revert l. induction a as [|y a IH]; intros l x b a' x' b' -> E' W W' N N'.
    - destruct a' as [|z a']; cbn [app] in E'; injection E' as E1 E2; [subst x'; eapply word_clash; eassumption|]. subst b. apply (N x'); [apply in_or_app; right; left; reflexivity|exact W'].
    - destruct a' as [|z a']; cbn [app] in E'; injection E' as E1 E2; [|apply (IH (a ++ x :: b)%list x b a' x' b' eq_refl E2 W W' N N')]. subst b'. apply (N' x); [apply in_or_app; right; left; reflexivity|exact W]. }
  intros E args v w [a x b Ea Wa Na|a x b Ea Wa Na|Na] [a' x' b' Eb Wb Nb|a' x' b' Eb Wb Nb|Nb]; try reflexivity; exfalso.
  - exact (G _ _ _ _ _ _ _ Ea Eb Wa Wb Na Nb).
  - destruct (Nb x) as (X & Y); [|tauto]. rewrite Ea. apply in_or_app. right. left. reflexivity.
  - exact (G _ _ _ _ _ _ _ Eb Ea Wb Wa Nb Na).
  - destruct (Nb x) as (X & Y); [|tauto]. rewrite Ea. apply in_or_app. right. left. reflexivity.
  - destruct (Na x') as (X & Y); [|tauto]. rewrite Eb. apply in_or_app. right. left. reflexivity.
  - destruct (Na x') as (X & Y); [|tauto]. rewrite Eb. apply in_or_app. right. left. reflexivity.
Qed.
Lemma wanted_iff : forall E args v, o_groups (get_options E args) = v <-> wanted E args v.
Proof.
  intros E args v. assert (W : wanted E args (o_groups (get_options E args))).
  { destruct (fold_options args (mkOpts (e_groups E) None)) as (_ & B). cbv zeta in B. cbn [o_groups] in B.
    assert (G : o_groups (get_options E args) = o_groups (fold_left (fun o a => parse_option a o) args (mkOpts (e_groups E) None))) by (unfold get_options; cbv zeta; destruct (o_umask _); reflexivity). rewrite G.
    destruct B as [(-> & x & y & z & -> & M & N)|[(-> & x & y & z & -> & M & N)|(-> & M)]]; [eapply w_on; eauto|eapply w_off; eauto|apply w_default; exact M]. }
  split; [intros <-; exact W|]. intro X. eapply wanted_unique; eassumption.
Qed.

Lemma base_iff : forall E args mask m, match o_umask (get_options E args) with Some v => set_umask v mask | None => mask end = m <-> base E args mask m.
Proof.
  intros E args mask m. assert (B : 0 < 8 <= 10) by lia.
  assert (X : base E args mask (match o_umask (get_options E args) with Some v => set_umask v mask | None => mask end)).
  { destruct (o_umask (get_options E args)) as [v|] eqn:O; apply configured_iff in O; [|apply b_none; exact O]. unfold set_umask. destruct (strtoul 8 v) as [u [rest|]] eqn:S0.
    - apply strtoul_some in S0; [|exact B]. destruct S0 as (neg & n & S0 & ->). rewrite nine_bits. eapply b_set; eassumption.
    - apply strtoul_none in S0; [|exact B]. eapply b_bad; [exact O|apply S0]. }
  split; [intros <-; exact X|]. intro Y. revert X. generalize (match o_umask (get_options E args) with Some v => set_umask v mask | None => mask end). intros m' X.
  assert (U : forall v w, configured E args v -> configured E args w -> v = w) by (intros v w V W; apply configured_iff in V, W; congruence).
  destruct X as [v neg n rest C S0|v C S0|C]; destruct Y as [v' neg' n' rest' C' S1|v' C' S1|C']; pose proof (U _ _ C C') as UV; try discriminate; try injection UV as <-; try reflexivity.
  - destruct (signed_unique 8 _ _ _ _ _ _ _ B S0 S1) as (-> & -> & _). reflexivity.
  - destruct (S1 _ _ _ S0).
  - destruct (S0 _ _ _ S1).
Qed.

Lemma digit_copied : forall m, 0 <= m < 512 -> Z.lor (Z.land m (Z.lnot 56)) (Z.land (Z.shiftr m 3) 56) = 72 * (m / 64) + m mod 8.
Proof.
  intros m R. assert (A : forallb (fun n => Z.lor (Z.land (Z.of_nat n) (Z.lnot 56)) (Z.land (Z.shiftr (Z.of_nat n) 3) 56) =? 72 * (Z.of_nat n / 64) + Z.of_nat n mod 8) (seq 0 512) = true) by (vm_compute; reflexivity).
  rewrite forallb_forall in A. specialize (A (Z.to_nat m)). rewrite Z2Nat.id in A by lia. apply Z.eqb_eq, A. apply in_seq. lia.
Qed.
Lemma shared_iff : forall E args p m m', 0 <= m < 512 -> (use_groups (get_options E args) p m = m' <-> shared E args p m m').
Proof.
  intros E args p m m' R. unfold use_groups, shared.
  assert (P : negb (p_uid p =? 0) && match p_group p with Some g => streq (p_name p) g | None => false end = true <-> private p).
  { unfold private. rewrite andb_true_iff, negb_true_iff, Z.eqb_neq. destruct (p_group p) as [g|]; [rewrite streq_eq; intuition congruence|intuition discriminate]. }
  rewrite <- andb_assoc. revert P. generalize (negb (p_uid p =? 0) && match p_group p with Some g => streq (p_name p) g | None => false end). intros c P.
  destruct (o_groups (get_options E args)) eqn:G; cbn [andb]; apply wanted_iff in G.
  - destruct c.
    + pose proof (proj1 P eq_refl) as C. rewrite digit_copied by exact R. split; [intros <-; left; auto|]. intros [(_ & _ & ->)|([X|X] & _)]; [reflexivity| |contradiction]. pose proof (wanted_unique _ _ _ _ G X). discriminate.
    + assert (NP : ~ private p) by (intro X; apply P in X; discriminate). split; [intros <-; right; auto|]. intros [(_ & X & _)|(_ & ->)]; [contradiction|reflexivity].
  - split; [intros <-; right; auto|]. intros [(X & _)|(_ & ->)]; [|reflexivity]. pose proof (wanted_unique _ _ _ _ G X). discriminate.
Qed.

(** ** The fields of GECOS *)

Lemma fields_split : forall c m t, ~ In c m -> fields c (m ++ c :: t)%list = m :: fields c t.
Proof.
  intros c m t. induction m as [|x m IH]; intro N; cbn [app fields]; [rewrite Ascii.eqb_refl; reflexivity|].
  destruct (Ascii.eqb_spec x c) as [->|NE]; [exfalso; apply N; left; reflexivity|]. rewrite IH by (intro I; apply N; right; exact I). reflexivity.
Qed.
Lemma fields_none : forall c s, ~ In c s -> fields c s = [s].
Proof.
  intros c s. induction s as [|x s IH]; intro N; cbn [fields]; [reflexivity|]. destruct (Ascii.eqb_spec x c) as [->|NE]; [exfalso; apply N; left; reflexivity|]. rewrite IH by (intro I; apply N; right; exact I). reflexivity.
Qed.

(** A comma ends keys and numbers. *)
Lemma iprefix_comma : forall k s r, ~ In ","%char (map tolower k) -> skip_iprefix k (s ++ ","%char :: r)%list = option_map (fun t => t ++ ","%char :: r)%list (skip_iprefix k s).
Proof.
  induction k as [|x k IH]; intros s r N; [reflexivity|]. destruct s as [|y s]; cbn [app skip_iprefix].
  - change (tolower ","%char) with ","%char. destruct (Ascii.eqb_spec (tolower x) ","%char) as [E|NE]; [exfalso; apply N; left; exact E|reflexivity].
  - destruct (Ascii.eqb (tolower x) (tolower y)); [apply IH; intro I; apply N; right; exact I|reflexivity].
Qed.
Lemma signed_comma : forall b s r neg n, 0 < b <= 10 -> ((exists rest, signed b (s ++ ","%char :: r)%list neg n rest) <-> exists rest, signed b s neg n rest).
Proof.
  intros b s r neg n B. assert (NC : forall c, hex_val c < b -> c <> ","%char) by (intros c H ->; change (hex_val ","%char) with 99 in H; lia). split.
  - intros (rest & sp & sg & ds & E & A & SG & (ND & D & V) & R). assert (NI : ~ In ","%char (sp ++ sg ++ ds)%list).
    { intro I. apply in_app_or in I. destruct I as [I|I]; [rewrite forallb_forall in A; apply A in I; discriminate|]. apply in_app_or in I. destruct I as [I|I].
      - destruct SG as [(_ & ->)|(_ & [->| ->])]; cbn in I; destruct I as [I|[]] || destruct I; discriminate.
      - apply D in I. apply (NC _ I). reflexivity. }
    replace (sp ++ sg ++ ds ++ rest)%list with ((sp ++ sg ++ ds) ++ rest)%list in E by (rewrite <- !app_assoc; reflexivity).
    assert (L : exists rest', s = ((sp ++ sg ++ ds) ++ rest')%list /\ rest = (rest' ++ ","%char :: r)%list).
    { clear - E NI. revert s E. induction (sp ++ sg ++ ds)%list as [|x l IH]; intros s E; [exists s; auto|]. destruct s as [|y s]; cbn [app] in E; injection E as E1 E2; [exfalso; apply NI; left; symmetry; exact E1|].
      destruct (IH ltac:(intro I; apply NI; right; exact I) s E2) as (rest' & -> & ->). exists rest'. subst y. auto. }
    destruct L as (rest' & -> & ->). exists rest', sp, sg, ds. rewrite <- !app_assoc. split; [reflexivity|]. split; [exact A|]. split; [exact SG|]. split; [split; auto|].
    destruct rest' as [|c q]; [left; reflexivity|]. right. destruct R as [R|(c' & q' & R & X)]; [discriminate|]. cbn [app] in R. injection R as -> _. exists c', q. auto.
  - intros (rest & sp & sg & ds & -> & A & SG & BS & R). exists (rest ++ ","%char :: r)%list, sp, sg, ds. rewrite <- !app_assoc. split; [reflexivity|]. split; [exact A|]. split; [exact SG|]. split; [exact BS|]. right.
    destruct R as [->|(c & q & -> & X)]; [exists ","%char, r; split; [reflexivity|change (hex_val ","%char) with 99; lia]|]. exists c, (q ++ ","%char :: r)%list. auto.
Qed.
Lemma number_comma : forall b s r v, 0 < b <= 10 -> number b s v -> number b (s ++ ","%char :: r)%list v.
Proof.
  intros b s r v B [(neg & n & rest & S0 & ->)|(N & ->)].
  - destruct (proj2 (signed_comma b s r neg n B) (ex_intro _ rest S0)) as (rest' & S1). left. exists neg, n, rest'. auto.
  - right. split; [|reflexivity]. intros neg n rest S1. destruct (proj1 (signed_comma b s r neg n B) (ex_intro _ rest S1)) as (rest' & S0). apply (N _ _ _ S0).
Qed.
Lemma item_comma : forall f r st, gecos_item (f ++ ","%char :: r)%list st = gecos_item f st.
Proof.
  intros f r [mask fx]. unfold gecos_item. rewrite !iprefix_comma by (cbv; intuition discriminate). assert (B8 : 0 < 8 <= 10) by lia. assert (B10 : 0 < 10 <= 10) by lia.
  assert (S8 : forall s, strtol8 (s ++ ","%char :: r)%list = strtol8 s) by (intro s; apply (number_unique 8 (s ++ ","%char :: r)%list); [exact B8|apply strtol8_number|apply number_comma; [exact B8|apply strtol8_number]]).
  assert (S10 : forall s, fst (strtol (s ++ ","%char :: r)%list) = fst (strtol s)) by (intro s; apply (number_unique 10 (s ++ ","%char :: r)%list); [exact B10|apply strtol_number|apply number_comma; [exact B10|apply strtol_number]]).
  destruct (skip_iprefix (lit "umask=") f); cbn [option_map]; [rewrite S8; reflexivity|]. destruct (skip_iprefix (lit "pri=") f); cbn [option_map]; [rewrite S10; reflexivity|]. destruct (skip_iprefix (lit "ulimit=") f); cbn [option_map]; [rewrite S10; reflexivity|reflexivity].
Qed.

(** The fields one after the other. *)
Fixpoint run (l : list cstr) (st : Z * list effect) : res (Z * list effect) := match l with [] => Ok st | f :: l => bind (gecos_item f st) (run l) end.
Lemma loop_run : forall fuel cp st, let cp' := match cp with c :: t => if Ascii.eqb c ","%char then t else cp | [] => cp end in
  (length cp' < fuel)%nat -> gecos_loop fuel cp st = run (fields ","%char cp') st.
Proof.
  induction fuel as [|fuel IH]; intros cp st cp' L; [lia|]. change (gecos_loop (S fuel) cp st) with (bind (gecos_item cp' st) (fun st => match strchr ","%char cp' with None => Ok st | Some cp => gecos_loop fuel cp st end)). clearbody cp'. clear cp.
  destruct (strchr ","%char cp') as [q|] eqn:SC.
  - apply strchr_some in SC. destruct SC as (m & t & -> & -> & N). rewrite fields_split by exact N. cbn [run]. rewrite item_comma. destruct (gecos_item m st) as [st'| |]; cbn [bind]; [|reflexivity|reflexivity].
    rewrite IH; [reflexivity|]. cbn. rewrite app_length in L. cbn [length] in L. lia.
  - apply strchr_none in SC. rewrite fields_none by exact SC. cbn [run]. reflexivity.
Qed.
Lemma loop_fields : forall g st, gecos_loop (S (length g)) g st = run (fields ","%char g) st.
Proof.
  intros g st. rewrite loop_run by (destruct g as [|c g]; [cbn; lia|]; destruct (Ascii.eqb c ","%char); cbn [length]; lia).
  destruct g as [|c g]; [reflexivity|]. destruct (Ascii.eqb_spec c ","%char) as [->|N]; [|reflexivity]. cbn [fields]. rewrite Ascii.eqb_refl. cbn [run]. destruct st as [m fx]. reflexivity.
Qed.

Lemma ikey_clash : forall f s s', (ikey (lit "umask=") f s -> ~ ikey (lit "pri=") f s') /\ (ikey (lit "umask=") f s -> ~ ikey (lit "ulimit=") f s') /\ (ikey (lit "pri=") f s -> ~ ikey (lit "ulimit=") f s').
Proof.
  assert (G : forall k k' f s s', ikey k f s -> ikey k' f s' -> exists t t', (map tolower k ++ t = map tolower k' ++ t')%list).
  { intros k k' f s s' (x & -> & M) (x' & E & M'). exists (map tolower s), (map tolower s'). rewrite <- M, <- M', <- !map_app, E. reflexivity. }
  intros f s s'. repeat split; intros A B; destruct (G _ _ _ _ _ A B) as (t & t' & X); discriminate.
Qed.
Lemma item_iff : forall f m fx m' fx', gecos_item f (m, fx) = Ok (m', fx') <-> exists o e, item f o e /\ m' = match o with Some x => x | None => m end /\ fx' = (fx ++ e)%list.
Proof.
  intros f m fx m' fx'. assert (B8 : 0 < 8 <= 10) by lia. assert (B10 : 0 < 10 <= 10) by lia. unfold gecos_item. destruct (skip_iprefix (lit "umask=") f) as [s|] eqn:K1.
  - apply ikey_iff in K1. split.
    + intro H. injection H as <- <-. exists (Some (strtol8 s mod 512)), []. rewrite nine_bits, app_nil_r. split; [eapply i_mask; [exact K1|apply strtol8_number]|auto].
    + intros (o & e & [s' v K N|s' v K N|s' v K N R|N1 N2 N3] & -> & ->).
      * rewrite app_nil_r, nine_bits. rewrite (ikey_unique _ _ _ _ K1 K), (number_unique 8 _ _ _ B8 N (strtol8_number s')). reflexivity.
      * destruct (ikey_clash f s s') as (X & _). destruct (X K1 K).
      * destruct (ikey_clash f s s') as (_ & X & _). destruct (X K1 K).
      * destruct (N1 _ K1).
  - pose proof (ikey_none _ _ K1) as X1. destruct (skip_iprefix (lit "pri=") f) as [s|] eqn:K2.
    + apply ikey_iff in K2. split.
      * intro H. injection H as <- <-. exists None, [ENice (fst (strtol s))]. split; [eapply i_nice; [exact K2|apply strtol_number]|auto].
      * intros (o & e & [s' v K N|s' v K N|s' v K N R|N1 N2 N3] & -> & ->).
        -- destruct (X1 _ K).
        -- rewrite (ikey_unique _ _ _ _ K2 K), (number_unique 10 _ _ _ B10 N (strtol_number s')). reflexivity.
        -- destruct (ikey_clash f s s') as (_ & _ & X). destruct (X K2 K).
        -- destruct (N2 _ K2).
    + pose proof (ikey_none _ _ K2) as X2. destruct (skip_iprefix (lit "ulimit=") f) as [s|] eqn:K3.
      * apply ikey_iff in K3. cbv zeta. split.
        -- destruct ((512 * fst (strtol s) <? LONG_MIN) || (LONG_MAX <? 512 * fst (strtol s))) eqn:C; [discriminate|]. apply orb_false_iff in C. destruct C as (C1 & C2). apply Z.ltb_ge in C1, C2.
           intro H. injection H as <- <-. exists None, [EFsize (512 * fst (strtol s))]. split; [eapply i_size; [exact K3|apply strtol_number|lia]|auto].
        -- intros (o & e & [s' v K N|s' v K N|s' v K N R|N1 N2 N3] & -> & ->).
           ++ destruct (X1 _ K).
           ++ destruct (X2 _ K).
           ++ rewrite (ikey_unique _ _ _ _ K3 K), <- (number_unique 10 _ _ _ B10 N (strtol_number s')). destruct (Z.ltb_spec (512 * v) LONG_MIN); [lia|]. destruct (Z.ltb_spec LONG_MAX (512 * v)); [lia|]. reflexivity.
           ++ destruct (N3 _ K3).
      * pose proof (ikey_none _ _ K3) as X3. split.
        -- intro H. injection H as <- <-. exists None, []. rewrite app_nil_r. split; [apply i_none; assumption|auto].
        -- intros (o & e & [s' v K N|s' v K N|s' v K N R|N1 N2 N3] & -> & ->); [destruct (X1 _ K)|destruct (X2 _ K)|destruct (X3 _ K)|]. rewrite app_nil_r. reflexivity.
Qed.
Lemma run_iff : forall l m fx m' fx', run l (m, fx) = Ok (m', fx') <-> exists e, items l m m' e /\ fx' = (fx ++ e)%list.
Proof.
  induction l as [|f l IH]; intros m fx m' fx'; cbn [run].
  - split; [intro H; injection H as <- <-; exists []; rewrite app_nil_r; split; [constructor|reflexivity]|]. intros (e & I & ->). inversion I; subst. rewrite app_nil_r. reflexivity.
  - split.
    + intro H. destruct (gecos_item f (m, fx)) as [[m1 fx1]| |] eqn:G; cbn [bind] in H; try discriminate. apply item_iff in G. destruct G as (o & e & I & -> & ->). apply IH in H. destruct H as (e' & J & ->). exists (e ++ e')%list. split; [eapply is_cons; eassumption|rewrite app_assoc; reflexivity].
    + intros (e & I & ->). inversion I as [|? ? ? o ? e1 e2 I1 I2]; subst. assert (G : gecos_item f (m, fx) = Ok (match o with Some x => x | None => m end, (fx ++ e1)%list)) by (apply item_iff; exists o, e1; auto). rewrite G. cbn [bind]. apply IH. exists e2. split; [exact I2|rewrite app_assoc; reflexivity].
Qed.

(** ** Theorems *)

(** The mask of the session and what else GECOS asks for. *)
Theorem session_mask : forall E args mask user p m fx, e_get_user E = (PAM_SUCCESS, user) -> e_pw E user = Some p -> 0 <= mask < 512 ->
  (open_session E args mask = Ok (PAM_SUCCESS, m, fx) <->
   exists m1 m2, base E args mask m1 /\ shared E args p m1 m2 /\ match p_gecos p with None => m = m2 /\ fx = [] | Some g => items (fields ","%char g) m2 m fx end).
Proof.
  intros E args mask user p m fx G P R. unfold open_session. cbv zeta. rewrite G, Z.eqb_refl. cbn [negb]. rewrite P.
  destruct (match o_umask (get_options E args) with Some v => set_umask v mask | None => mask end) as [|q|q] eqn:B0; rewrite <- B0;
  assert (BI : base E args mask (match o_umask (get_options E args) with Some v => set_umask v mask | None => mask end)) by (apply base_iff; reflexivity);
  clear B0; revert BI; generalize (match o_umask (get_options E args) with Some v => set_umask v mask | None => mask end) as m1; intros m1 BI;
  (assert (BU : forall x, base E args mask x -> x = m1) by (intros x X; apply base_iff in X; apply base_iff in BI; congruence));
  (assert (R1 : 0 <= m1 < 512) by (destruct BI; [apply Z.mod_pos_bound; lia|exact R|exact R]));
  (assert (SI : forall x, use_groups (get_options E args) p m1 = x <-> shared E args p m1 x) by (intro x; apply shared_iff; exact R1));
  revert SI; generalize (use_groups (get_options E args) p m1) as m2; intros m2 SI;
  (destruct (p_gecos p) as [g|];
   [rewrite loop_fields; split;
    [intro H; destruct (run (fields ","%char g) (m2, [])) as [[a b]| |] eqn:RN; cbn [bind] in H; try discriminate; injection H as <- <-; cbn [fst snd];
     apply run_iff in RN; destruct RN as (e & I & ->); exists m1, m2; split; [exact BI|]; split; [apply SI; reflexivity|exact I]
    |intros (x1 & x2 & X1 & X2 & I); apply BU in X1; subst x1; apply SI in X2; subst x2;
     assert (RN : run (fields ","%char g) (m2, []) = Ok (m, fx)) by (apply run_iff; exists fx; auto); rewrite RN; reflexivity]
   |split;
    [intro H; injection H as <- <-; exists m1, m2; split; [exact BI|]; split; [apply SI; reflexivity|auto]
    |intros (x1 & x2 & X1 & X2 & -> & ->); apply BU in X1; subst x1; apply SI in X2; subst x2; reflexivity]]).
Qed.

Lemma items_range : forall l m m' fx, items l m m' fx -> 0 <= m < 512 -> 0 <= m' < 512.
Proof.
  intros l m m' fx I. induction I as [m|f l m o m' e e' J I IH]; intro R; [exact R|]. apply IH. destruct J; [apply Z.mod_pos_bound; lia|exact R..].
Qed.
(** It has nine bits. *)
Theorem session_mask_range : forall E args mask rc m fx, 0 <= mask < 512 -> open_session E args mask = Ok (rc, m, fx) -> 0 <= m < 512 /\ (rc <> PAM_SUCCESS -> m = mask /\ fx = []).
Proof.
  intros E args mask rc m fx R H. destruct (e_get_user E) as [r user] eqn:G. destruct (Z.eqb_spec r PAM_SUCCESS) as [->|NR].
  - destruct (e_pw E user) as [p|] eqn:P.
    + assert (RC : rc = PAM_SUCCESS). { unfold open_session in H. cbv zeta in H. rewrite G, Z.eqb_refl in H. cbn [negb] in H. rewrite P in H. destruct (p_gecos p) as [g|]; [|congruence]. destruct (gecos_loop _ _ _) as [st| |]; cbn [bind] in H; congruence. }
      subst rc. split; [|contradiction]. apply (session_mask E args mask user p m fx G P R) in H. destruct H as (m1 & m2 & B & S0 & I).
      assert (R1 : 0 <= m1 < 512) by (destruct B; [apply Z.mod_pos_bound; lia|exact R|exact R]).
      assert (R2 : 0 <= m2 < 512). { destruct S0 as [(_ & _ & ->)|(_ & ->)]; [|exact R1]. pose proof (Z.div_mod m1 64 ltac:(lia)). pose proof (Z.mod_pos_bound m1 64 ltac:(lia)). pose proof (Z.mod_pos_bound m1 8 ltac:(lia)). assert (0 <= m1 / 64 < 8) by (split; [apply Z.div_pos; lia|apply Z.div_lt_upper_bound; lia]). lia. }
      destruct (p_gecos p) as [g|]; [eapply items_range; eassumption|]. destruct I as (-> & _). exact R2.
    + unfold open_session in H. cbv zeta in H. rewrite G, Z.eqb_refl in H. cbn [negb] in H. rewrite P in H. injection H as <- <- <-. split; [exact R|auto].
  - unfold open_session in H. cbv zeta in H. rewrite G in H. destruct (Z.eqb_spec r PAM_SUCCESS); [contradiction|]. cbn [negb] in H. injection H as <- <- <-. split; [exact R|auto].
Qed.

Lemma items_app : forall l1 l2 m m' fx, items (l1 ++ l2) m m' fx -> exists m1 fx1 fx2, items l1 m m1 fx1 /\ items l2 m1 m' fx2.
Proof.
  induction l1 as [|f l1 IH]; intros l2 m m' fx H; [exists m, [], fx; split; [constructor|exact H]|]. cbn [app] in H. inversion H as [|? ? ? o ? e1 e2 I1 I2]; subst. apply IH in I2. destruct I2 as (m1 & fx1 & fx2 & A & B).
  exists m1, (e1 ++ fx1)%list, fx2. split; [eapply is_cons; eassumption|exact B].
Qed.
(** A mask in GECOS wins over everything else; the last one if there are several. *)
Theorem gecos_wins : forall E args mask user p g a f b s v m fx, e_get_user E = (PAM_SUCCESS, user) -> e_pw E user = Some p -> 0 <= mask < 512 -> p_gecos p = Some g ->
  fields ","%char g = (a ++ f :: b)%list -> ikey (lit "umask=") f s -> number 8 s v -> (forall y w, In y b -> ~ ikey (lit "umask=") y w) ->
  open_session E args mask = Ok (PAM_SUCCESS, m, fx) -> m = v mod 512.
Proof.
  intros E args mask user p g a f b s v m fx G P R GE FE K N L H. apply (session_mask E args mask user p m fx G P R) in H. destruct H as (m1 & m2 & _ & _ & I). rewrite GE, FE in I.
  apply items_app in I. destruct I as (m3 & _ & fx2 & _ & I). inversion I as [|? ? ? o ? e1 e2 I1 I2]; subst. assert (O : o = Some (v mod 512)).
  { destruct I1 as [s' v' K' N'|s' v' K' N'|s' v' K' N' R'|N1 N2 N3].
    - rewrite (ikey_unique _ _ _ _ K K') in N. rewrite (number_unique 8 _ _ _ ltac:(lia) N N'). reflexivity.
    - destruct (ikey_clash f s s') as (X & _). destruct (X K K').
    - destruct (ikey_clash f s s') as (_ & X & _). destruct (X K K').
    - destruct (N1 _ K). }
  subst o. cbv iota in I2. clear - I2 L. remember (v mod 512) as w eqn:W. clear W v. revert L. induction I2 as [m|f l m o m' e e' J I IH]; intro L; [reflexivity|].
  assert (o = None) as ->. { destruct J as [s' v' K' N'| | |]; try reflexivity. destruct (L f s' (or_introl eq_refl) K'). }
  apply IH. intros y w0 Iy. apply L. right. exact Iy.
Qed.

(** The call is defined unless GECOS has a file size limit too large to multiply by 512. *)
Theorem umask_defined : forall E args mask, open_session E args mask = UB <->
  exists user p g f s v, e_get_user E = (PAM_SUCCESS, user) /\ e_pw E user = Some p /\ p_gecos p = Some g /\ In f (fields ","%char g) /\ ikey (lit "ulimit=") f s /\ number 10 s v /\ ~ LONG_MIN <= 512 * v <= LONG_MAX.
Proof.
  intros E args mask. assert (B10 : 0 < 10 <= 10) by lia.
  assert (IT : forall f m fx, gecos_item f (m, fx) = UB <-> exists s v, ikey (lit "ulimit=") f s /\ number 10 s v /\ ~ LONG_MIN <= 512 * v <= LONG_MAX).
  { intros f m fx. unfold gecos_item. destruct (skip_iprefix (lit "umask=") f) as [s|] eqn:K1; [split; [discriminate|]; intros (s' & v & K & _); apply ikey_iff in K1; destruct (ikey_clash f s s') as (_ & X & _); destruct (X K1 K)|].
    destruct (skip_iprefix (lit "pri=") f) as [s|] eqn:K2; [split; [discriminate|]; intros (s' & v & K & _); apply ikey_iff in K2; destruct (ikey_clash f s s') as (_ & _ & X); destruct (X K2 K)|].
    destruct (skip_iprefix (lit "ulimit=") f) as [s|] eqn:K3; [|split; [discriminate|]; intros (s' & v & K & _); destruct (ikey_none _ _ K3 _ K)]. apply ikey_iff in K3. cbv zeta. split.
    - destruct ((512 * fst (strtol s) <? LONG_MIN) || (LONG_MAX <? 512 * fst (strtol s))) eqn:C; [|discriminate]. intros _. exists s, (fst (strtol s)). split; [exact K3|]. split; [apply strtol_number|]. apply orb_true_iff in C. destruct C as [C|C]; apply Z.ltb_lt in C; lia.
    - intros (s' & v & K & N & R). rewrite (ikey_unique _ _ _ _ K3 K), <- (number_unique 10 _ _ _ B10 N (strtol_number s')). destruct (Z.ltb_spec (512 * v) LONG_MIN); [reflexivity|]. destruct (Z.ltb_spec LONG_MAX (512 * v)); [reflexivity|lia]. }
  assert (NF : forall f st, gecos_item f st <> OutOfFuel).
  { intros f [m fx]. unfold gecos_item. destruct (skip_iprefix (lit "umask=") f); [discriminate|]. destruct (skip_iprefix (lit "pri=") f); [discriminate|]. destruct (skip_iprefix (lit "ulimit=") f); [|discriminate]. cbv zeta. destruct (_ || _); discriminate. }
  assert (RN : forall l st, run l st = UB <-> exists f s v, In f l /\ ikey (lit "ulimit=") f s /\ number 10 s v /\ ~ LONG_MIN <= 512 * v <= LONG_MAX).
  { induction l as [|f l IH]; intros [m fx]; cbn [run]; [split; [discriminate|intros (f & s & v & [] & _)]|]. destruct (gecos_item f (m, fx)) as [st| |] eqn:GI; cbn [bind].
    - rewrite IH. split; [intros (f' & s & v & I & X); exists f', s, v; split; [right; exact I|exact X]|]. intros (f' & s & v & [<-|I] & X); [|exists f', s, v; auto].
      assert (Y : gecos_item f (m, fx) = UB) by (apply IT; exists s, v; exact X). congruence.
    - apply IT in GI. destruct GI as (s & v & X). split; [intros _; exists f, s, v; split; [left; reflexivity|exact X]|reflexivity].
    - destruct (NF _ _ GI). }
  unfold open_session. cbv zeta. destruct (e_get_user E) as [r user]. destruct (Z.eqb_spec r PAM_SUCCESS) as [->|NR]; cbn [negb].
  - destruct (e_pw E user) as [p|] eqn:P.
    + destruct (p_gecos p) as [g|] eqn:GE.
      * rewrite loop_fields. split.
        -- intro H. match type of H with bind ?x _ = _ => destruct x as [st| |] eqn:X end; cbn [bind] in H; try discriminate. apply RN in X. destruct X as (f & s & v & X). exists user, p, g, f, s, v. auto.
        -- intros (user' & p' & g' & f & s & v & U & P' & G' & X). injection U as <-. rewrite P in P'. injection P' as <-. rewrite GE in G'. injection G' as <-.
           match goal with |- bind ?x _ = _ => assert (Y : x = UB) by (apply RN; exists f, s, v; exact X) end. rewrite Y. reflexivity.
      * split; [discriminate|]. intros (user' & p' & g' & f & s & v & U & P' & G' & X). congruence.
    + split; [discriminate|]. intros (user' & p' & g' & f & s & v & U & P' & _). congruence.
  - split; [discriminate|]. intros (user' & p' & g' & f & s & v & U & _). congruence.
Qed.
Theorem umask_terminates : forall E args mask, open_session E args mask <> OutOfFuel.
Proof.
  intros E args mask. unfold open_session. cbv zeta. destruct (e_get_user E) as [r user]. destruct (negb (r =? PAM_SUCCESS)); [discriminate|]. destruct (e_pw E user) as [p|]; [|discriminate]. destruct (p_gecos p) as [g|]; [|discriminate].
  rewrite loop_fields. assert (X : forall l st, run l st <> OutOfFuel).
  { induction l as [|f l IH]; intros [m fx]; cbn [run]; [discriminate|]. destruct (gecos_item f (m, fx)) as [st| |] eqn:GI; cbn [bind]; [apply IH|discriminate|].
    unfold gecos_item in GI. destruct (skip_iprefix (lit "umask=") f); [discriminate|]. destruct (skip_iprefix (lit "pri=") f); [discriminate|]. destruct (skip_iprefix (lit "ulimit=") f); [|discriminate]. cbv zeta in GI. destruct (_ || _) in GI; discriminate. }
  match goal with |- bind ?x _ <> _ => destruct x as [st| |] eqn:Y; cbn [bind] end; [discriminate|discriminate|]. destruct (X _ _ Y).
Qed.

Definition exE (d : option string) (g : string) : env := mkEnv true (option_map lit d) (Some (lit "077")) (PAM_SUCCESS, lit "ann") (fun _ => Some (mkPw 1000 (lit "ann") (Some (lit "ann")) (Some (lit g)))).
Example umask_example : mask_option [lit "umask=077"; lit "UMASK=027"; lit "silent"] (lit "027") /\ wanted (exE None "") [lit "umask=022"] true /\
  open_session (exE None "Ann,,") [lit "umask=077"; lit "UMASK=022"] 0 = Ok (PAM_SUCCESS, 2, []) /\
  open_session (exE None "Ann,,") [] 0 = Ok (PAM_SUCCESS, 7, []) /\
  open_session (exE (Some "027"%string) "Ann,,") [lit "nousergroups"] 0 = Ok (PAM_SUCCESS, 23, []) /\
  open_session (exE None "Ann,pri=5,Umask=0137,ulimit=-1") [] 0 = Ok (PAM_SUCCESS, 95, [ENice 5; EFsize (-512)]) /\
  open_session (exE (Some "none"%string) "") [] 18 = Ok (PAM_SUCCESS, 2, []).
Proof.
  split; [exists [lit "umask=077"], (lit "UMASK=027"), [lit "silent"]; split; [reflexivity|]; split; [apply ikey_iff; reflexivity|]; intros y w [<-|[]]; apply ikey_none; reflexivity|].
  split; [apply wanted_iff; vm_compute; reflexivity|]. vm_compute. repeat split.
Qed.

(** "A mask that is not a number changes nothing": in GECOS it makes new files writable by everyone. *)
Theorem bad_mask_ignored_refuted : exists E args mask fx, 0 < mask < 512 /\ configured E args (Some (lit "077")) /\ open_session E args mask = Ok (PAM_SUCCESS, 0, fx).
Proof. exists (exE None "Ann,umask=none"), [], 18, []. split; [lia|]. split; [apply configured_iff; reflexivity|]. vm_compute. reflexivity. Qed.
(** "The call is always defined." *)
Theorem umask_defined_refuted : exists E args mask, 0 <= mask < 512 /\ open_session E args mask = UB.
Proof. exists (exE None "Ann,ulimit=36028797018963968"), [], 0. split; [lia|]. vm_compute. reflexivity. Qed.

(** The mask is set, and success told, only for a user the module was given and knows; otherwise the code says why, and nothing changes. *)
Theorem umask_result : forall E args mask rc m fx, open_session E args mask = Ok (rc, m, fx) ->
  (forall user, e_get_user E = (PAM_SUCCESS, user) -> (rc = PAM_SUCCESS /\ e_pw E user <> None) \/ (rc = PAM_USER_UNKNOWN /\ e_pw E user = None /\ m = mask /\ fx = [])) /\
  (fst (e_get_user E) <> PAM_SUCCESS -> m = mask /\ fx = [] /\
     ((fst (e_get_user E) = PAM_CONV_AGAIN /\ rc = PAM_INCOMPLETE) \/ (fst (e_get_user E) <> PAM_CONV_AGAIN /\ rc = fst (e_get_user E)))).
Proof.
  intros E args mask rc m fx H. unfold open_session in H. cbv zeta in H. destruct (e_get_user E) as [r user] eqn:G. cbn [fst]. split.
  - intros u Q. injection Q as -> ->. cbn [Z.eqb negb] in H. destruct (e_pw E u) as [p|]; [left|right; repeat split; congruence].
    split; [|discriminate]. destruct (p_gecos p) as [g|]; [|congruence]. destruct (gecos_loop _ _ _) as [st| |]; cbn [bind] in H; congruence.
  - intro N. apply Z.eqb_neq in N. rewrite N in H. cbn [negb] in H. destruct (Z.eqb_spec r PAM_CONV_AGAIN) as [->|N2]; injection H as <- <- <-; auto.
Qed.
Example umask_result_example : open_session (mkEnv true None None (PAM_SUCCESS, lit "eve") (fun _ => None)) [lit "umask=077"] 18 = Ok (PAM_USER_UNKNOWN, 18, []).
Proof. reflexivity. Qed.

Print Assumptions session_mask.
Print Assumptions session_mask_range.
Print Assumptions gecos_wins.
Print Assumptions umask_defined.
Print Assumptions umask_terminates.
Print Assumptions bad_mask_ignored_refuted.
Print Assumptions umask_defined_refuted.
Print Assumptions umask_result.
