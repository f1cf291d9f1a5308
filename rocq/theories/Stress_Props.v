(** C114: pam_stress. *)
From Coq Require Import String Ascii List Arith ZArith Lia Bool.
From Verif Require Import Base Str_Model Stress_Model.
Import ListNotations.
Local Open Scope Z_scope.

(** * Specification *)

Definition given (o : string) (args : list cstr) : Prop := In (lit o) args.
(** The user is asked for the password: there is no token that may be used. *)
Definition Asks (args : list cstr) (s : state) : Prop := ~ given "use_first_pass" args /\ (given "try_first_pass" args -> authtok s = None).
Definition after (s : state) (msgs : list msg) : state := mkSt (authtok s) (oldauthtok s) (marker s) (asked s ++ [msgs]).
Definition the_prompt : list msg := [(EchoOff, lit "STRESS Password: ")].
(** How a password is found. *)
Inductive Password (E : env) (flags : Z) (args : list cstr) (s : state) : Z -> option cstr -> state -> Prop :=
| P_known p : given "try_first_pass" args \/ given "use_first_pass" args -> authtok s = Some p -> e_dup E = true -> Password E flags args s 0 (Some p) s
| P_no_memory p : given "try_first_pass" args \/ given "use_first_pass" args -> authtok s = Some p -> e_dup E = false -> Password E flags args s 5 None s
| P_no_token : given "use_first_pass" args -> authtok s = None -> Password E flags args s 6 None s
| P_nobody : Asks args s -> e_conv E = false -> Password E flags args s 29 None s
| P_refused rc r : Asks args s -> e_conv E = true -> e_answer E (asked s) the_prompt = (rc, r) -> rc <> 0 -> Password E flags args s rc None (after s the_prompt)
| P_no_answer : Asks args s -> e_conv E = true -> e_answer E (asked s) the_prompt = (0, None) -> Password E flags args s 19 None (after s the_prompt)
| P_null r : Asks args s -> e_conv E = true -> e_answer E (asked s) the_prompt = (0, Some (None :: r)) -> Z.testbit flags 0 = true -> Password E flags args s 7 None (after s the_prompt)
| P_answer p r : Asks args s -> e_conv E = true -> e_answer E (asked s) the_prompt = (0, Some (p :: r)) -> (Z.testbit flags 0 = true -> p <> None) -> Password E flags args s 0 p (after s the_prompt).
(** The second call has something to do: the password is to be changed, and is marked as expired if only then. *)
Definition Wanted (flags : Z) (args : list cstr) (s : state) : Prop :=
  Z.testbit flags 14 = false /\ Z.testbit flags 13 = true /\ ~ given "fail_1" args /\
  (given "expired" args \/ Z.testbit flags 5 = false \/ marker s = Some (lit "yes")).
(** The messages of a change. *)
Definition new_prompts (flags : Z) (user : cstr) : list msg :=
  ((if Z.testbit flags 15 then [] else [(TextInfo, lit "Changing STRESS password for " ++ user ++ lit ".")]) ++
   [(EchoOff, lit "Enter new STRESS password: "); (EchoOff, lit "Retype new STRESS password: ")])%list.

(** * Facts *)

Lemma on_bit : forall v k, 0 <= k -> on v (2 ^ k) = Z.testbit v k.
Proof.
  intros v k Hk. unfold on. destruct (Z.testbit v k) eqn:T.
  - destruct (Z.eqb_spec (Z.land v (2 ^ k)) 0) as [E|]; [|reflexivity]. assert (X : Z.testbit (Z.land v (2 ^ k)) k = true) by (rewrite Z.land_spec, T, Z.pow2_bits_true by exact Hk; reflexivity).
    rewrite E, Z.bits_0 in X. discriminate.
  - replace (Z.land v (2 ^ k)) with 0; [reflexivity|]. symmetry. apply Z.bits_inj'. intros n Hn. rewrite Z.land_spec, Z.bits_0.
    destruct (Z.eq_dec k n) as [<-|D]; [now rewrite T|]. rewrite Z.pow2_bits_false by exact D. apply andb_false_r.
Qed.
Lemma on_two : forall v a b, on v (Z.lor a b) = on v a || on v b.
Proof.
  intros v a b. unfold on. rewrite Z.land_lor_distr_r.
  destruct (Z.eqb_spec (Z.lor (Z.land v a) (Z.land v b)) 0) as [E|E], (Z.eqb_spec (Z.land v a) 0) as [A|A], (Z.eqb_spec (Z.land v b) 0) as [B|B]; cbn; try reflexivity; exfalso;
    try (apply Z.lor_eq_0_iff in E; tauto). apply E. now rewrite A, B.
Qed.
Lemma parse_bits : forall args k, Z.testbit (parse args) k = existsb (fun a => Z.testbit (option_bit a) k) args.
Proof.
  intros args k. unfold parse. assert (H : forall c, Z.testbit (fold_left (fun ctrl a => Z.lor ctrl (option_bit a)) args c) k = Z.testbit c k || existsb (fun a => Z.testbit (option_bit a) k) args).
  { induction args as [|a args IH]; intros c; cbn [fold_left existsb]; [now rewrite orb_false_r|]. rewrite IH, Z.lor_spec. now rewrite orb_assoc. }
  rewrite H, Z.bits_0. reflexivity.
Qed.
Lemma parse_given : forall args k o, (forall a, Z.testbit (option_bit a) k = streq a (lit o)) -> Z.testbit (parse args) k = true <-> given o args.
Proof.
  intros args k o H. rewrite parse_bits, existsb_exists. split.
  - intros (a & Ha & T). rewrite H in T. apply streq_eq in T. now subst.
  - intros Hg. exists (lit o). split; [exact Hg|]. rewrite H. apply streq_refl.
Qed.
Ltac by_option := intros a; unfold option_bit;
  repeat match goal with |- context [if streq a ?x then _ else _] => destruct (streq a x) eqn:?; [match goal with H : streq a x = true |- _ => apply streq_eq in H; subst a; reflexivity end|] end;
  reflexivity.
Lemma opt_no_warn : forall args, on (parse args) ST_NO_WARN = true <-> given "no_warn" args.
Proof. intros args. change ST_NO_WARN with (2 ^ 1). rewrite on_bit by lia. apply parse_given. by_option. Qed.
Lemma opt_use : forall args, on (parse args) ST_USE_PASS1 = true <-> given "use_first_pass" args.
Proof. intros args. change ST_USE_PASS1 with (2 ^ 2). rewrite on_bit by lia. apply parse_given. by_option. Qed.
Lemma opt_try : forall args, on (parse args) ST_TRY_PASS1 = true <-> given "try_first_pass" args.
Proof. intros args. change ST_TRY_PASS1 with (2 ^ 3). rewrite on_bit by lia. apply parse_given. by_option. Qed.
Lemma opt_rootok : forall args, on (parse args) ST_ROOTOK = true <-> given "rootok" args.
Proof. intros args. change ST_ROOTOK with (2 ^ 4). rewrite on_bit by lia. apply parse_given. by_option. Qed.
Lemma opt_expired : forall args, on (parse args) ST_EXPIRED = true <-> given "expired" args.
Proof. intros args. change ST_EXPIRED with (2 ^ 5). rewrite on_bit by lia. apply parse_given. by_option. Qed.
Lemma opt_fail_1 : forall args, on (parse args) ST_FAIL_1 = true <-> given "fail_1" args.
Proof. intros args. change ST_FAIL_1 with (2 ^ 6). rewrite on_bit by lia. apply parse_given. by_option. Qed.
Lemma opt_fail_2 : forall args, on (parse args) ST_FAIL_2 = true <-> given "fail_2" args.
Proof. intros args. change ST_FAIL_2 with (2 ^ 7). rewrite on_bit by lia. apply parse_given. by_option. Qed.
Lemma opt_prelim : forall args, on (parse args) ST_PRELIM = true <-> given "prelim" args.
Proof. intros args. change ST_PRELIM with (2 ^ 8). rewrite on_bit by lia. apply parse_given. by_option. Qed.
Lemma opt_required : forall args, on (parse args) ST_REQUIRE_PWD = true <-> given "required" args.
Proof. intros args. change ST_REQUIRE_PWD with (2 ^ 9). rewrite on_bit by lia. apply parse_given. by_option. Qed.
Lemma flag_silent : forall f, on f F_SILENT = Z.testbit f 15. Proof. intros f. exact (on_bit f 15 ltac:(lia)). Qed.
Lemma flag_null : forall f, on f F_DISALLOW_NULL = Z.testbit f 0. Proof. intros f. exact (on_bit f 0 ltac:(lia)). Qed.
Lemma flag_expired : forall f, on f F_CHANGE_EXPIRED = Z.testbit f 5. Proof. intros f. exact (on_bit f 5 ltac:(lia)). Qed.
Lemma flag_prelim : forall f, on f F_PRELIM = Z.testbit f 14. Proof. intros f. exact (on_bit f 14 ltac:(lia)). Qed.
Lemma flag_update : forall f, on f F_UPDATE = Z.testbit f 13. Proof. intros f. exact (on_bit f 13 ltac:(lia)). Qed.
Lemma not_true : forall b P, (b = true <-> P) -> b = false -> ~ P.
Proof. intros b P H F X. apply H in X. congruence. Qed.

(** * Theorems *)

(** C114: how a password is found: the token of before if options allow and require it, or the answer to one hidden prompt. *)
Theorem stress_password : forall E flags args s rc p s', get_password E flags (parse args) s = Ok (rc, p, s') <-> Password E flags args s rc p s'.
Proof.
  intros E flags args s rc p s'. unfold get_password. rewrite on_two.
  pose proof (opt_try args) as Ht. pose proof (opt_use args) as Hu. pose proof (flag_null flags) as Hf.
  destruct (on (parse args) ST_TRY_PASS1) eqn:T, (on (parse args) ST_USE_PASS1) eqn:U; cbn [orb];
    [ assert (G1 : given "try_first_pass" args) by (now apply Ht); assert (G2 : given "use_first_pass" args) by (now apply Hu)
    | assert (G1 : given "try_first_pass" args) by (now apply Ht); assert (G2 : ~ given "use_first_pass" args) by exact (not_true _ _ Hu eq_refl)
    | assert (G1 : ~ given "try_first_pass" args) by exact (not_true _ _ Ht eq_refl); assert (G2 : given "use_first_pass" args) by (now apply Hu)
    | assert (G1 : ~ given "try_first_pass" args) by exact (not_true _ _ Ht eq_refl); assert (G2 : ~ given "use_first_pass" args) by exact (not_true _ _ Hu eq_refl) ].
  1, 3: destruct (authtok s) as [q|] eqn:A;
    [destruct (e_dup E) eqn:D; (split; [intros H; injection H as <- <- <-; econstructor; eauto; tauto | intros H; inversion H; unfold Asks in *; subst; try congruence; tauto])
    | split; [intros H; injection H as <- <- <-; now apply P_no_token | intros H; inversion H; unfold Asks in *; subst; try congruence; tauto]].
  - destruct (authtok s) as [q|] eqn:A.
    + destruct (e_dup E) eqn:D; (split; [intros H; injection H as <- <- <-; econstructor; eauto; tauto | intros H; inversion H; unfold Asks in *; subst; try congruence; exfalso; intuition congruence]).
    + assert (K : Asks args s) by (split; auto). unfold converse, after in *. destruct (e_conv E) eqn:C.
      2: { split; [intros H; cbn in H; injection H as <- <- <-; now apply P_nobody | intros H; inversion H; subst; unfold after, Asks in *; try congruence; try reflexivity; exfalso; intuition congruence]. }
      change prompt with the_prompt. destruct (e_answer E (asked s) the_prompt) as [rc0 r0] eqn:Q. rewrite Hf.
      destruct (Z.eqb_spec rc0 0) as [->|N]; cbn [negb].
      * destruct r0 as [[|q r0]|].
        -- split; [discriminate | intros H; inversion H; subst; unfold after, Asks in *; try congruence; try reflexivity; exfalso; intuition congruence].
        -- destruct (Z.testbit flags 0) eqn:B, q as [q|]; cbn [andb].
           all: split; [intros H; injection H as <- <- <-; (eapply P_null; eauto; fail) || (eapply P_answer; eauto; congruence) | intros H; inversion H; subst; unfold after, Asks in *; try congruence; try reflexivity; exfalso; intuition congruence].
        -- split; [intros H; injection H as <- <- <-; now apply P_no_answer | intros H; inversion H; subst; unfold after, Asks in *; try congruence; try reflexivity; exfalso; intuition congruence].
      * split; [intros H; injection H as <- <- <-; eapply P_refused; eauto | intros H; inversion H; subst; unfold after, Asks in *; try congruence; try reflexivity; exfalso; intuition congruence].
  - assert (K : Asks args s) by (split; tauto). unfold converse, after in *. destruct (e_conv E) eqn:C.
      2: { split; [intros H; cbn in H; injection H as <- <- <-; now apply P_nobody | intros H; inversion H; subst; unfold after, Asks in *; try congruence; try reflexivity; exfalso; intuition congruence]. }
      change prompt with the_prompt. destruct (e_answer E (asked s) the_prompt) as [rc0 r0] eqn:Q. rewrite Hf.
      destruct (Z.eqb_spec rc0 0) as [->|N]; cbn [negb].
      * destruct r0 as [[|q r0]|].
        -- split; [discriminate | intros H; inversion H; subst; unfold after, Asks in *; try congruence; try reflexivity; exfalso; intuition congruence].
        -- destruct (Z.testbit flags 0) eqn:B, q as [q|]; cbn [andb].
           all: split; [intros H; injection H as <- <- <-; (eapply P_null; eauto; fail) || (eapply P_answer; eauto; congruence) | intros H; inversion H; subst; unfold after, Asks in *; try congruence; try reflexivity; exfalso; intuition congruence].
        -- split; [intros H; injection H as <- <- <-; now apply P_no_answer | intros H; inversion H; subst; unfold after, Asks in *; try congruence; try reflexivity; exfalso; intuition congruence].
      * split; [intros H; injection H as <- <- <-; eapply P_refused; eauto | intros H; inversion H; subst; unfold after, Asks in *; try congruence; try reflexivity; exfalso; intuition congruence].
Qed.
(** C114: authentication stores the password found as the token; with the option fail_1 it fails nevertheless, and in no other way. *)
Theorem stress_authenticate : forall E flags args s r s', authenticate E flags args s = Ok (r, s') <->
  (e_getuser E <> 0 /\ r = e_getuser E /\ s' = s) \/
  (e_getuser E = 0 /\ exists rc p s1, Password E flags args s rc p s1 /\
    ((rc <> 0 /\ r = rc /\ s' = s1) \/
     (rc = 0 /\ (p = None \/ e_set E 0 = true) /\ s' = mkSt p (oldauthtok s1) (marker s1) (asked s1) /\ ((given "fail_1" args /\ r = 6) \/ (~ given "fail_1" args /\ r = 0))) \/
     (rc = 0 /\ p <> None /\ e_set E 0 = false /\ r = 5 /\ s' = mkSt (match authtok s1 with Some _ => Some [] | None => None end) (oldauthtok s1) (marker s1) (asked s1)))).
Proof.
  intros E flags args s r s'. unfold authenticate. cbv zeta. destruct (Z.eqb_spec (e_getuser E) 0) as [G|G]; cbn [negb].
  2: { split; [intros H; injection H as <- <-; auto | intros [(_ & -> & ->) | (H & _)]; [reflexivity | contradiction]]. }
  pose proof (opt_fail_1 args) as F1. split.
  - intros H. right. split; [exact G|]. destruct (get_password E flags (parse args) s) as [[[rc p] s1]| |] eqn:P; cbn [bind] in H; [|discriminate | discriminate].
    apply stress_password in P. exists rc, p, s1. split; [exact P|]. destruct (Z.eqb_spec rc 0) as [->|N]; cbn [negb] in H; [|injection H as <- <-; auto].
    right. unfold put in H. destruct p as [t|].
    + destruct (e_set E 0) eqn:M; cbn in H.
      * left. split; [reflexivity|]. split; [now right|]. destruct (on (parse args) ST_FAIL_1) eqn:F; injection H as <- <-; (split; [reflexivity|]); [left | right]; (split; [|reflexivity]); [now apply F1 | exact (not_true _ _ F1 eq_refl)].
      * right. injection H as <- <-. split; [reflexivity|]. split; [discriminate|]. auto.
    + cbn in H. left. split; [reflexivity|]. split; [now left|]. destruct (on (parse args) ST_FAIL_1) eqn:F; injection H as <- <-; (split; [reflexivity|]); [left | right]; (split; [|reflexivity]); [now apply F1 | exact (not_true _ _ F1 eq_refl)].
  - intros [(X & _) | (_ & rc & p & s1 & P & H)]; [contradiction|]. apply stress_password in P. rewrite P. cbn [bind].
    destruct H as [(N & -> & ->) | [(-> & M & -> & R) | (-> & N & M & -> & ->)]].
    + apply Z.eqb_neq in N. now rewrite N.
    + assert (X : put (e_set E 0) p (authtok s1) = (0, p)) by (unfold put; destruct p; [destruct M as [M | ->]; [discriminate | reflexivity] | reflexivity]). rewrite X. cbn.
      destruct R as [(R & ->) | (R & ->)]; [apply F1 in R; now rewrite R|]. destruct (on (parse args) ST_FAIL_1); [exfalso; apply R; now apply F1 | reflexivity].
    + destruct p as [t|]; [|congruence]. unfold put. rewrite M. reflexivity.
Qed.
(** C114: the results of the other calls, and the mark of an expired password. *)
Theorem stress_results : forall E args s,
  (setcred args = 17 <-> given "fail_2" args) /\ (setcred args = 0 <-> ~ given "fail_2" args) /\
  (open_session E args = 0 <-> e_user E <> None /\ e_service E <> None /\ ~ given "fail_1" args) /\ (open_session E args <> 0 -> open_session E args = 14) /\
  (close_session E args = 0 <-> e_user E <> None /\ e_service E <> None /\ ~ given "fail_2" args) /\ (close_session E args <> 0 -> close_session E args = 14) /\
  (given "fail_1" args -> acct_mgmt E args s = (6, s)) /\
  (~ given "fail_1" args -> ~ given "expired" args -> acct_mgmt E args s = (0, s)) /\
  (~ given "fail_1" args -> given "expired" args -> e_yes E = true -> e_data E = 0 -> acct_mgmt E args s = (12, mkSt (authtok s) (oldauthtok s) (Some (lit "yes")) (asked s))) /\
  (~ given "fail_1" args -> given "expired" args -> e_yes E = false \/ e_data E <> 0 -> fst (acct_mgmt E args s) = (if e_yes E then e_data E else 5) /\ snd (acct_mgmt E args s) = s).
Proof.
  intros E args s. pose proof (opt_fail_1 args) as F1. pose proof (opt_fail_2 args) as F2. pose proof (opt_expired args) as Ex.
  assert (D1 : given "fail_1" args \/ ~ given "fail_1" args) by (destruct (on (parse args) ST_FAIL_1); [left; now apply F1 | right; exact (not_true _ _ F1 eq_refl)]).
  assert (B1 : ~ given "fail_1" args -> on (parse args) ST_FAIL_1 = false) by (intros N; destruct (on (parse args) ST_FAIL_1); [exfalso; apply N; now apply F1 | reflexivity]).
  assert (B2 : ~ given "fail_2" args -> on (parse args) ST_FAIL_2 = false) by (intros N; destruct (on (parse args) ST_FAIL_2); [exfalso; apply N; now apply F2 | reflexivity]).
  assert (B3 : ~ given "expired" args -> on (parse args) ST_EXPIRED = false) by (intros N; destruct (on (parse args) ST_EXPIRED); [exfalso; apply N; now apply Ex | reflexivity]).
  assert (S1 : forall b o, (on (parse args) b = true <-> given o args) -> (session b E args = 0 <-> e_user E <> None /\ e_service E <> None /\ ~ given o args) /\ (session b E args <> 0 -> session b E args = 14)).
  { intros b o H. unfold session. destruct (e_user E), (e_service E), (on (parse args) b); (split; [split; [intros X; try discriminate | intros (X1 & X2 & X3); try congruence; try (exfalso; apply X3; now apply H)] | intros X; congruence]).
    split; [discriminate|]. split; [discriminate|]. exact (not_true _ _ H eq_refl). }
  destruct (S1 _ _ F1) as (O1 & O2). destruct (S1 _ _ F2) as (C1 & C2).
  split; [|split; [|split; [exact O1 | split; [exact O2 | split; [exact C1 | split; [exact C2|]]]]]].
  - unfold setcred. rewrite <- F2. destruct (on (parse args) ST_FAIL_2); split; congruence.
  - unfold setcred. rewrite <- F2. destruct (on (parse args) ST_FAIL_2); split; congruence.
  - unfold acct_mgmt. cbv zeta. split; [|split; [|split]].
    + intros H. apply F1 in H. now rewrite H.
    + intros N1 N2. now rewrite (B1 N1), (B3 N2).
    + intros N1 G Y D. apply Ex in G. rewrite (B1 N1), G, Y, D. reflexivity.
    + intros N1 G Y. apply Ex in G. rewrite (B1 N1), G. destruct (e_yes E); cbn [negb]; [|auto]. destruct Y as [Y | Y]; [discriminate|]. apply Z.eqb_neq in Y. rewrite Y. auto.
Qed.
(** C114: calls that have nothing to change change nothing and ask nothing. *)
Theorem stress_idle : forall E flags args s, ~ Wanted flags args s ->
  exists r, chauthtok E flags args s = Ok (r, s) /\
    (Z.testbit flags 14 = true -> (given "prelim" args /\ r = 24) \/ (~ given "prelim" args /\ r = 0)) /\
    (Z.testbit flags 14 = false -> Z.testbit flags 13 = false -> r = 4) /\
    (Z.testbit flags 14 = false -> Z.testbit flags 13 = true -> (given "fail_1" args /\ r = 22) \/ (~ given "fail_1" args /\ r = 0)).
Proof.
  intros E flags args s W. unfold chauthtok. cbv zeta. rewrite (flag_prelim flags), (flag_update flags), (flag_expired flags).
  pose proof (opt_fail_1 args) as F1. pose proof (opt_prelim args) as Pr. pose proof (opt_expired args) as Ex. unfold Wanted in W.
  destruct (Z.testbit flags 14) eqn:B14.
  - eexists. split; [reflexivity|]. split; [|split; intros; discriminate]. intros _. destruct (on (parse args) ST_PRELIM) eqn:P; [left | right]; (split; [|reflexivity]); [now apply Pr | exact (not_true _ _ Pr eq_refl)].
  - destruct (Z.testbit flags 13) eqn:B13.
    2: { eexists. split; [reflexivity|]. split; [discriminate|]. split; [reflexivity|]. intros _ X. discriminate. }
    destruct (on (parse args) ST_FAIL_1) eqn:F.
    + eexists. split; [reflexivity|]. split; [discriminate|]. split; [discriminate|]. intros _ _. left. split; [now apply F1 | reflexivity].
    + assert (N1 : ~ given "fail_1" args) by exact (not_true _ _ F1 eq_refl).
      destruct (on (parse args) ST_EXPIRED) eqn:X; [exfalso; apply W; repeat split; auto; left; now apply Ex|].
      destruct (Z.testbit flags 5) eqn:B5; [|exfalso; apply W; repeat split; auto].
      assert (M : match marker s with Some t => negb (streq t (lit "yes")) | None => true end = true).
      { destruct (marker s) as [t|] eqn:M; [|reflexivity]. destruct (streq t (lit "yes")) eqn:Q; [|reflexivity]. apply streq_eq in Q. subst t. exfalso. apply W. repeat split; auto. }
      rewrite M. cbn [negb andb]. eexists. split; [reflexivity|]. split; [discriminate|]. split; [discriminate|]. intros _ _. right. auto.
Qed.
(** C114: a token is only changed in the second call, with success, after two equal answers; and an error about different answers changes none. *)
Definition old_first (E : env) (flags : Z) (args : list cstr) (s : state) (rc : Z) (s1 : state) : Prop :=
  (given "required" args /\ ~ (e_root E = true /\ given "rootok" args) /\
     exists rc0 p s0, Password E flags args s rc0 p s0 /\
       ((rc0 <> 0 /\ rc = rc0 /\ s1 = s0) \/
        (rc0 = 0 /\ (p = None \/ e_set E 1 = true) /\ rc = 0 /\ s1 = mkSt (authtok s0) p (marker s0) (asked s0)) \/
        (rc0 = 0 /\ p <> None /\ e_set E 1 = false /\ rc = 5 /\ s1 = mkSt (authtok s0) (match oldauthtok s0 with Some _ => Some [] | None => None end) (marker s0) (asked s0)))) \/
  ((~ given "required" args \/ (e_root E = true /\ given "rootok" args)) /\ rc = 0 /\ s1 = s).
Lemma change_wanted : forall E flags args s, Wanted flags args s -> chauthtok E flags args s = change E flags (parse args) s.
Proof.
  intros E flags args s (W1 & W2 & W3 & W4). unfold chauthtok. cbv zeta. rewrite (flag_prelim flags), (flag_update flags), (flag_expired flags), W1, W2.
  pose proof (opt_fail_1 args) as F1. pose proof (opt_expired args) as Ex.
  destruct (on (parse args) ST_FAIL_1); [exfalso; apply W3; now apply F1|].
  destruct W4 as [G | [B | M]]; [apply Ex in G; now rewrite G | rewrite B, andb_false_r; reflexivity|]. rewrite M, streq_refl. cbn [negb]. now rewrite andb_false_r.
Qed.
Lemma old_cases : forall E flags args s rc s1,
  (if on (parse args) ST_REQUIRE_PWD && negb (e_root E && on (parse args) ST_ROOTOK) then
     bind (get_password E flags (parse args) s) (fun '(rc, pass, s) => if negb (rc =? PAM_SUCCESS) then Ok (rc, s) else let (rc, tok) := put (e_set E 1) pass (oldauthtok s) in Ok (rc, set_old tok s))
   else Ok (PAM_SUCCESS, s)) = Ok (rc, s1) <-> old_first E flags args s rc s1.
Proof.
  intros E flags args s rc s1. pose proof (opt_required args) as Rq. pose proof (opt_rootok args) as Rk. unfold old_first.
  destruct (on (parse args) ST_REQUIRE_PWD) eqn:A; cbn [andb].
  2: { assert (N : ~ given "required" args) by exact (not_true _ _ Rq eq_refl). split; [intros H; injection H as <- <-; right; auto | intros [(X & _) | (_ & -> & ->)]; [contradiction | reflexivity]]. }
  assert (G : given "required" args) by (now apply Rq).
  destruct (e_root E && on (parse args) ST_ROOTOK) eqn:B; cbn [negb].
  1: { apply andb_true_iff in B. destruct B as (B1 & B2). apply Rk in B2. split; [intros H; injection H as <- <-; right; auto | intros [(_ & X & _) | (_ & -> & ->)]; [tauto | reflexivity]]. }
  assert (N : ~ (e_root E = true /\ given "rootok" args)) by (intros (B1 & B2); apply Rk in B2; rewrite B1, B2 in B; discriminate).
  split.
  - intros H. left. split; [exact G|]. split; [exact N|]. destruct (get_password E flags (parse args) s) as [[[rc0 p] s0]| |] eqn:P; cbn [bind] in H; [|discriminate | discriminate].
    apply stress_password in P. exists rc0, p, s0. split; [exact P|]. destruct (Z.eqb_spec rc0 0) as [->|D]; cbn [negb] in H; [|injection H as <- <-; auto].
    right. unfold put in H. destruct p as [t|]; [destruct (e_set E 1) eqn:M|]; injection H as <- <-.
    + left. auto.
    + right. split; [reflexivity|]. split; [discriminate|]. auto.
    + left. auto.
  - intros [(_ & _ & rc0 & p & s0 & P & H) | ([X | X] & _)]; [|contradiction | contradiction]. apply stress_password in P. rewrite P. cbn [bind].
    destruct H as [(D & -> & ->) | [(-> & M & -> & ->) | (-> & D & M & -> & ->)]].
    + apply Z.eqb_neq in D. now rewrite D.
    + unfold put. destruct p as [t|]; [destruct M as [M | ->]; [discriminate | reflexivity] | reflexivity].
    + destruct p as [t|]; [|congruence]. unfold put. rewrite M. reflexivity.
Qed.
(** What happens after the old password: the messages, if they can be made. *)
Definition Asked (E : env) (flags : Z) (msgs : list msg) : Prop :=
  exists u, msgs = new_prompts flags u /\ (Z.testbit flags 15 = false -> e_user E = Some u /\ e_text E = true).
Lemma prompts_length : forall flags u, length (new_prompts flags u) = if Z.testbit flags 15 then 2%nat else 3%nat.
Proof. intros flags u. unfold new_prompts. destruct (Z.testbit flags 15); reflexivity. Qed.
Lemma change_asked : forall E flags args s s1 msgs, Wanted flags args s -> old_first E flags args s 0 s1 -> Asked E flags msgs ->
  chauthtok E flags args s = new_password E flags (parse args) msgs s1.
Proof.
  intros E flags args s s1 msgs W O (u & -> & A). rewrite (change_wanted _ _ _ _ W). unfold change. apply old_cases in O. rewrite O. cbn [bind Z.eqb negb]. rewrite flag_silent. unfold new_prompts.
  destruct (Z.testbit flags 15); [reflexivity|]. destruct (A eq_refl) as (-> & ->). reflexivity.
Qed.
(** C114: a change: two equal answers at the end of the responses. The token of before is the old one now; what is stored is the first response. *)
Theorem stress_changed : forall E flags args s s1 msgs pre a, Wanted flags args s -> old_first E flags args s 0 s1 -> Asked E flags msgs -> e_conv E = true ->
  e_answer E (asked s1) msgs = (0, Some (pre ++ [Some a; Some a])%list) -> length msgs = S (S (length pre)) -> e_set E 2 = true -> e_set E 3 = true ->
  chauthtok E flags args s = Ok (0, mkSt (match pre with [] => Some a | t :: _ => t end) (authtok s1) (marker s1) (asked s1 ++ [msgs])).
Proof.
  intros E flags args s s1 msgs pre a W O A C Q L M2 M3. rewrite (change_asked _ _ _ _ _ _ W O A). unfold new_password, converse. rewrite C, Q. cbn [Z.eqb negb]. cbv zeta.
  rewrite L, app_length. cbn [length]. replace (Nat.ltb (length pre + 2) (S (S (length pre)))) with false by (symmetry; apply Nat.ltb_ge; lia).
  rewrite !app_nth2 by lia. replace (S (S (length pre)) - 2 - length pre)%nat with 0%nat by lia. replace (S (S (length pre)) - 1 - length pre)%nat with 1%nat by lia. cbn [nth].
  rewrite streq_refl. cbn [negb]. rewrite M2, M3. unfold set_old, set_tok, put. cbn [authtok oldauthtok marker asked].
  destruct pre as [|[t|] pre]; cbn [app nth]; destruct (authtok s1); reflexivity.
Qed.
(** C114: two different answers: an error, the tokens stay, and the user is told if messages are allowed. *)
Theorem stress_differ : forall E flags args s s1 msgs pre a b, Wanted flags args s -> old_first E flags args s 0 s1 -> Asked E flags msgs -> e_conv E = true ->
  e_answer E (asked s1) msgs = (0, Some (pre ++ [Some a; Some b])%list) -> length msgs = S (S (length pre)) -> a <> b ->
  (Z.testbit flags 15 = true \/ given "no_warn" args -> chauthtok E flags args s = Ok (20, after s1 msgs)) /\
  (Z.testbit flags 15 = false -> ~ given "no_warn" args -> let told := [(ErrorMsg, lit "Verification mis-typed; password unchanged")] in
     snd (e_answer E (asked s1 ++ [msgs]) told) <> Some [] -> chauthtok E flags args s = Ok (20, after (after s1 msgs) told)).
Proof.
  intros E flags args s s1 msgs pre a b W O A C Q L N. rewrite (change_asked _ _ _ _ _ _ W O A). unfold new_password, converse. rewrite C, Q. cbn [Z.eqb negb]. cbv zeta.
  rewrite L, app_length. cbn [length]. replace (Nat.ltb (length pre + 2) (S (S (length pre)))) with false by (symmetry; apply Nat.ltb_ge; lia).
  rewrite !app_nth2 by lia. replace (S (S (length pre)) - 2 - length pre)%nat with 0%nat by lia. replace (S (S (length pre)) - 1 - length pre)%nat with 1%nat by lia. cbn [nth].
  apply streq_neq in N. rewrite N. cbn [negb]. rewrite (flag_silent flags). pose proof (opt_no_warn args) as Nw. unfold after. cbn [authtok oldauthtok marker asked]. split.
  - intros [-> | G]; [reflexivity|]. apply Nw in G. rewrite G, andb_false_r. reflexivity.
  - intros -> G. destruct (on (parse args) ST_NO_WARN); [exfalso; apply G; now apply Nw|]. cbn [negb andb]. unfold mistyped.
    intros Hr. match goal with |- context [e_answer E ?x ?y] => change (e_answer E x y) with (e_answer E (asked s1 ++ [msgs]) [(ErrorMsg, lit "Verification mis-typed; password unchanged")]) end.
    destruct (e_answer E (asked s1 ++ [msgs]) [(ErrorMsg, lit "Verification mis-typed; password unchanged")]) as [rc r]. cbn [snd] in Hr. destruct r as [[|x r]|]; [congruence | reflexivity | reflexivity].
Qed.
(** C114: without two answers nothing is changed: no user, no memory for the text, no conversation, an error in it, no responses, or one of the two missing. *)
Theorem stress_unanswered : forall E flags args s s1, Wanted flags args s -> old_first E flags args s 0 s1 ->
  (Z.testbit flags 15 = false -> e_user E = None -> chauthtok E flags args s = Ok (10, s1)) /\
  (Z.testbit flags 15 = false -> e_user E <> None -> e_text E = false -> chauthtok E flags args s = Ok (5, s1)) /\
  forall msgs, Asked E flags msgs ->
    (e_conv E = false -> chauthtok E flags args s = Ok (29, s1)) /\
    (forall rc r, e_conv E = true -> e_answer E (asked s1) msgs = (rc, r) -> rc <> 0 -> chauthtok E flags args s = Ok (rc, after s1 msgs)) /\
    (e_conv E = true -> e_answer E (asked s1) msgs = (0, None) -> chauthtok E flags args s = Ok (19, after s1 msgs)) /\
    (forall pre x y, e_conv E = true -> e_answer E (asked s1) msgs = (0, Some (pre ++ [x; y])%list) -> length msgs = S (S (length pre)) -> x = None \/ y = None ->
       chauthtok E flags args s = Ok (4, after s1 msgs)).
Proof.
  intros E flags args s s1 W O. split; [|split].
  - intros B U. rewrite (change_wanted _ _ _ _ W). unfold change. apply old_cases in O. rewrite O. cbn [bind Z.eqb negb]. rewrite flag_silent, B, U. reflexivity.
  - intros B U T. rewrite (change_wanted _ _ _ _ W). unfold change. apply old_cases in O. rewrite O. cbn [bind Z.eqb negb]. rewrite flag_silent, B, T. destruct (e_user E); [reflexivity | congruence].
  - intros msgs A. rewrite (change_asked _ _ _ _ _ _ W O A). unfold new_password, converse. split; [|split; [|split]].
    + intros ->. reflexivity.
    + intros rc r -> -> N. apply Z.eqb_neq in N. rewrite N. reflexivity.
    + intros -> ->. reflexivity.
    + intros pre x y -> -> L N. cbn [Z.eqb negb]. cbv zeta. rewrite L, app_length. cbn [length]. replace (Nat.ltb (length pre + 2) (S (S (length pre)))) with false by (symmetry; apply Nat.ltb_ge; lia).
      rewrite !app_nth2 by lia. replace (S (S (length pre)) - 2 - length pre)%nat with 0%nat by lia. replace (S (S (length pre)) - 1 - length pre)%nat with 1%nat by lia. cbn [nth].
      destruct N as [-> | ->]; [reflexivity | destruct x; reflexivity].
Qed.
(** C114: if the old password cannot be had, its error is the result and there is no further question. *)
Theorem stress_old_failed : forall E flags args s rc s1, Wanted flags args s -> old_first E flags args s rc s1 -> rc <> 0 -> chauthtok E flags args s = Ok (rc, s1).
Proof.
  intros E flags args s rc s1 W O N. rewrite (change_wanted _ _ _ _ W). unfold change. apply old_cases in O. rewrite O. cbn [bind]. apply Z.eqb_neq in N. rewrite N. reflexivity.
Qed.
(** C114: with the token itself: if it changes, the call was a change, it succeeded, and the last two responses were equal. *)
Theorem stress_only : forall E flags args s r s', chauthtok E flags args s = Ok (r, s') -> authtok s' <> authtok s ->
  r = 0 /\ Wanted flags args s /\ exists s1 msgs resp a, old_first E flags args s 0 s1 /\ Asked E flags msgs /\ e_answer E (asked s1) msgs = (0, Some resp) /\
    nth (length msgs - 2) resp None = Some a /\ nth (length msgs - 1) resp None = Some a.
Proof.
  intros E flags args s r s' H N.
  assert (W : Wanted flags args s).
  { unfold Wanted. destruct (Z.testbit flags 14) eqn:B14; [exfalso|].
    - destruct (stress_idle E flags args s) as (r0 & E0 & _); [intros (X & _); congruence | congruence].
    - destruct (Z.testbit flags 13) eqn:B13; [|exfalso].
      2: { destruct (stress_idle E flags args s) as (r0 & E0 & _); [intros (_ & X & _); congruence | congruence]. }
      destruct (on (parse args) ST_FAIL_1) eqn:F.
      { apply opt_fail_1 in F. exfalso. destruct (stress_idle E flags args s) as (r0 & E0 & _); [intros (_ & _ & X & _); contradiction | congruence]. }
      assert (N1 : ~ given "fail_1" args) by exact (not_true _ _ (opt_fail_1 args) F). repeat split; auto.
      destruct (on (parse args) ST_EXPIRED) eqn:X; [left; now apply opt_expired|]. assert (N2 : ~ given "expired" args) by exact (not_true _ _ (opt_expired args) X). right.
      destruct (Z.testbit flags 5) eqn:B5; [right | now left]. destruct (marker s) as [t|] eqn:M.
      + destruct (streq t (lit "yes")) eqn:Q; [apply streq_eq in Q; now subst|]. exfalso. destruct (stress_idle E flags args s) as (r0 & E0 & _); [|congruence].
        apply streq_neq in Q. intros (_ & _ & _ & [X1 | [X1 | X1]]); [contradiction | congruence | congruence].
      + exfalso. destruct (stress_idle E flags args s) as (r0 & E0 & _); [|congruence]. intros (_ & _ & _ & [X1 | [X1 | X1]]); [contradiction | congruence | congruence]. }
  assert (T : forall rc s1, old_first E flags args s rc s1 -> authtok s1 = authtok s).
  { intros rc s1 [(_ & _ & rc0 & p & s0 & P & X) | (_ & _ & ->)]; [|reflexivity]. assert (Y : authtok s0 = authtok s) by (inversion P; subst; reflexivity).
    destruct X as [(_ & _ & ->) | [(_ & _ & _ & ->) | (_ & _ & _ & _ & ->)]]; exact Y. }
  rewrite (change_wanted _ _ _ _ W) in H. unfold change in H.
  match type of H with bind ?x _ = _ => destruct x as [[rc s1]| |] eqn:O end; cbn [bind] in H; [|discriminate | discriminate].
  apply old_cases in O. pose proof (T _ _ O) as T1. destruct (Z.eqb_spec rc 0) as [->|D]; cbn [negb] in H; [|injection H as <- <-; contradiction].
  assert (Y : exists msgs, Asked E flags msgs /\ new_password E flags (parse args) msgs s1 = Ok (r, s')).
  { rewrite flag_silent in H. unfold Asked, new_prompts. destruct (Z.testbit flags 15).
    - eexists. split; [exists []; split; [reflexivity | discriminate] | exact H].
    - destruct (e_user E) as [u|]; [|injection H as <- <-; contradiction]. destruct (e_text E); [|injection H as <- <-; contradiction].
      eexists. split; [exists u; split; [reflexivity | auto] | exact H]. }
  destruct Y as (msgs & A & Y). unfold new_password, converse in Y. destruct (e_conv E); [|injection Y as <- <-; contradiction].
  destruct (e_answer E (asked s1) msgs) as [rc r0] eqn:Q. destruct (Z.eqb_spec rc 0) as [->|D]; cbn [negb] in Y; [|injection Y as <- <-; contradiction].
  destruct r0 as [resp|]; [|injection Y as <- <-; contradiction]. cbv zeta in Y. destruct (Nat.ltb (length resp) (length msgs)); [discriminate|].
  destruct (nth (length msgs - 2) resp None) as [a|] eqn:N2; [|injection Y as <- <-; contradiction]. destruct (nth (length msgs - 1) resp None) as [b|] eqn:N1; [|injection Y as <- <-; contradiction].
  destruct (streq a b) eqn:S; cbn [negb] in Y.
  - injection Y as <- <-. apply streq_eq in S. subst b. split; [reflexivity|]. split; [exact W|]. exists s1, msgs, resp, a. auto.
  - exfalso. destruct (negb (on flags F_SILENT) && negb (on (parse args) ST_NO_WARN)); [|injection Y as <- <-; contradiction].
    destruct (e_answer E _ mistyped) as [rc r0] in Y. destruct r0 as [[|x r0]|]; [discriminate | injection Y as <- <-; contradiction | injection Y as <- <-; contradiction].
Qed.
(** C114: a password reported as expired is changed by the next call for expired passwords, whatever the options of that one are, except fail_1. *)
Theorem stress_expired : forall E args s s' flags args', acct_mgmt E args s = (12, s') -> e_data E <> 12 -> Z.testbit flags 14 = false -> Z.testbit flags 13 = true -> ~ given "fail_1" args' -> Wanted flags args' s'.
Proof.
  intros E args s s' flags args' H D B14 B13 N. split; [exact B14|]. split; [exact B13|]. split; [exact N|]. right. right. revert H. unfold acct_mgmt. cbv zeta.
  destruct (on (parse args) ST_FAIL_1); [discriminate|]. destruct (on (parse args) ST_EXPIRED); [|discriminate]. destruct (e_yes E); cbn [negb]; [|discriminate].
  destruct (Z.eqb_spec (e_data E) 0) as [Z0|Z0]; cbn [negb]; intros H; [injection H as <-; reflexivity | injection H as H _; congruence].
Qed.

(** A user at the terminal: the password, and twice the new one; nothing is said to messages. *)
Definition polite (pw new : string) (msgs : list msg) : list (option cstr) :=
  map (fun m => match m with
                | (EchoOff, t) => Some (if streq t (lit "STRESS Password: ") then lit pw else lit new)
                | _ => None
                end) msgs.
Definition ann (pw new : string) : env := mkEnv 0 (Some (lit "ann")) (Some (lit "passwd")) true (fun _ msgs => (0, Some (polite pw new msgs))) false true true true (fun _ => true) 0.
Definition fresh (tok : option cstr) : state := mkSt tok None None [].
(** C114: refuted: after a successful change the new password is the token. Without PAM_SILENT the token is the response to the first message, which has none. *)
Theorem stress_new_token_refuted : exists E flags args s s', chauthtok E flags args s = Ok (0, s') /\ Wanted flags args s /\ Asked E flags (new_prompts flags (lit "ann")) /\
  e_answer E (asked s) (new_prompts flags (lit "ann")) = (0, Some [None; Some (lit "new"); Some (lit "new")]) /\ authtok s = Some (lit "old") /\ authtok s' = None.
Proof.
  exists (ann "old" "new"), 8192, [], (fresh (Some (lit "old"))). eexists. split; [vm_compute; reflexivity|]. split.
  - split; [reflexivity|]. split; [reflexivity|]. split; [intros [] | right; left; reflexivity].
  - split; [exists (lit "ann"); split; [reflexivity | intros _; split; reflexivity]|]. split; [vm_compute; reflexivity|]. split; reflexivity.
Qed.
(** C114: refuted: the old password that the module asked for is the old token afterwards. *)
Theorem stress_old_token_refuted : exists E flags args s s', chauthtok E flags args s = Ok (0, s') /\ given "required" args /\ Password E flags args s 0 (Some (lit "typed")) (after s the_prompt) /\
  authtok s' = Some (lit "new") /\ oldauthtok s' = None.
Proof.
  exists (ann "typed" "new"), 40960, [lit "required"], (fresh None). eexists. split; [vm_compute; reflexivity|]. split; [now left|]. split.
  - eapply P_answer; [split; [intros [H | []]; discriminate | reflexivity] | reflexivity | vm_compute; reflexivity | discriminate].
  - split; reflexivity.
Qed.

(** * Examples *)
Lemma ann_wanted : Wanted 40960 [lit "no_warn"] (fresh (Some (lit "old"))).
Proof. split; [reflexivity|]. split; [reflexivity|]. split; [intros [H | []]; discriminate | right; left; reflexivity]. Qed.
Lemma ann_old : forall E flags, old_first E flags [lit "no_warn"] (fresh (Some (lit "old"))) 0 (fresh (Some (lit "old"))).
Proof. intros E flags. right. split; [left; intros [H | []]; discriminate|]. auto. Qed.
Lemma ann_asked : forall E, Asked E 40960 two_prompts.
Proof. intros E. exists []. split; [reflexivity | discriminate]. Qed.
(** A change in silence. *)
Example stress_changed_example : chauthtok (ann "old" "new") 40960 [lit "no_warn"] (fresh (Some (lit "old"))) = Ok (0, mkSt (Some (lit "new")) (Some (lit "old")) None [two_prompts]).
Proof. exact (stress_changed (ann "old" "new") _ _ _ _ two_prompts [] (lit "new") ann_wanted (ann_old _ _) (ann_asked _) eq_refl eq_refl eq_refl eq_refl eq_refl). Qed.
Definition clumsy : env := mkEnv 0 (Some (lit "ann")) (Some (lit "passwd")) true (fun _ _ => (0, Some [Some (lit "new"); Some (lit "mew")])) false true true true (fun _ => true) 0.
Example stress_differ_example : chauthtok clumsy 40960 [lit "no_warn"] (fresh (Some (lit "old"))) = Ok (20, mkSt (Some (lit "old")) None None [two_prompts]).
Proof. apply (stress_differ clumsy _ _ _ _ two_prompts [] (lit "new") (lit "mew") ann_wanted (ann_old _ _) (ann_asked _) eq_refl eq_refl eq_refl); [discriminate | now left]. Qed.
Definition mute : env := mkEnv 0 (Some (lit "ann")) (Some (lit "passwd")) true (fun _ _ => (0, Some [Some (lit "new"); None])) false true true true (fun _ => true) 0.
Example stress_unanswered_example : chauthtok mute 40960 [lit "no_warn"] (fresh (Some (lit "old"))) = Ok (4, mkSt (Some (lit "old")) None None [two_prompts]).
Proof.
  destruct (stress_unanswered mute 40960 [lit "no_warn"] (fresh (Some (lit "old"))) _ ann_wanted (ann_old _ _)) as (_ & _ & H). destruct (H two_prompts (ann_asked _)) as (_ & _ & _ & X).
  apply (X [] (Some (lit "new")) None eq_refl eq_refl eq_refl). now right.
Qed.
Example stress_old_failed_example : Wanted 40960 [lit "required"; lit "use_first_pass"] (fresh None) /\
  chauthtok (ann "old" "new") 40960 [lit "required"; lit "use_first_pass"] (fresh None) = Ok (6, fresh None).
Proof.
  assert (W : Wanted 40960 [lit "required"; lit "use_first_pass"] (fresh None)) by (split; [reflexivity|]; split; [reflexivity|]; split; [intros [H | [H | []]]; discriminate | right; left; reflexivity]).
  split; [exact W|]. apply (stress_old_failed _ _ _ _ 6 (fresh None) W); [|lia]. left. split; [now left|]. split; [intros (H & _); discriminate|].
  exists 6, None, (fresh None). split; [apply P_no_token; [right; now left | reflexivity] | left; split; [lia | auto]].
Qed.
Example stress_only_example : exists s', chauthtok (ann "old" "new") 40960 [lit "no_warn"] (fresh (Some (lit "old"))) = Ok (0, s') /\ authtok s' <> authtok (fresh (Some (lit "old"))).
Proof. eexists. split; [exact stress_changed_example | discriminate]. Qed.
Example stress_idle_example : ~ Wanted 8224 [] (fresh None) /\ chauthtok (ann "old" "new") 8224 [] (fresh None) = Ok (0, fresh None) /\
  chauthtok (ann "old" "new") 16384 [lit "prelim"] (fresh None) = Ok (24, fresh None).
Proof. split; [intros (_ & _ & _ & [[] | [H | H]]); discriminate|]. split; vm_compute; reflexivity. Qed.
(** A token that may be tried, and one that must be there. *)
Example stress_password_example : Password (ann "pw" "new") 0 [lit "try_first_pass"] (fresh None) 0 (Some (lit "pw")) (after (fresh None) the_prompt) /\
  Password (ann "pw" "new") 0 [lit "use_first_pass"] (fresh (Some (lit "tok"))) 0 (Some (lit "tok")) (fresh (Some (lit "tok"))).
Proof. split; apply stress_password; vm_compute; reflexivity. Qed.
Example stress_authenticate_example : authenticate (ann "pw" "new") 1 [lit "debug"] (fresh None) = Ok (0, mkSt (Some (lit "pw")) None None [the_prompt]) /\
  authenticate (ann "pw" "new") 0 [lit "fail_1"] (fresh None) = Ok (6, mkSt (Some (lit "pw")) None None [the_prompt]).
Proof. split; vm_compute; reflexivity. Qed.
Example stress_results_example : setcred [lit "fail_2"] = 17 /\ open_session (ann "a" "b") [lit "fail_2"] = 0 /\ close_session (ann "a" "b") [lit "fail_2"] = 14 /\
  acct_mgmt (ann "a" "b") [lit "expired"] (fresh None) = (12, mkSt None None (Some (lit "yes")) []).
Proof. vm_compute. auto. Qed.
Example stress_expired_example : Wanted 8224 [] (mkSt None None (Some (lit "yes")) []).
Proof. exact (stress_expired (ann "a" "b") [lit "expired"] (fresh None) _ 8224 [] (proj2 (proj2 (proj2 stress_results_example))) ltac:(discriminate) eq_refl eq_refl (fun x => x)). Qed.

Print Assumptions stress_password. Print Assumptions stress_authenticate. Print Assumptions stress_results. Print Assumptions stress_idle. Print Assumptions stress_changed. Print Assumptions stress_differ.
Print Assumptions stress_unanswered. Print Assumptions stress_old_failed. Print Assumptions stress_only. Print Assumptions stress_expired. Print Assumptions stress_new_token_refuted. Print Assumptions stress_old_token_refuted.
