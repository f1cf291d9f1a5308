(** C101: the session keyring of pam_keyinit. *)
From Coq Require Import String Ascii List Arith ZArith Bool Lia.
From Verif Require Import Base Keyinit_Model.
Import ListNotations.
Local Open Scope Z_scope.

(** ** Spec *)
(** What may happen to keyrings, last first: there is one at most at a time. It is made for a user and a group, the user's keyring is linked into it at
    once, and it is revoked once, as the user and group it was made for. The keyring that is there after it all. *)
Inductive lawful : list event -> option (Z * Z * Z) -> Prop :=
| lawful_start : lawful [] None
| lawful_make : forall l r u g b, lawful l None -> 0 < r -> lawful (Link b :: Join r u g :: l) (Some (r, u, g))
| lawful_end : forall l r u g b, lawful l (Some (r, u, g)) -> lawful (Revoke r u g b :: l) None.
(** The calls that start with a user, and their arguments. *)
Definition starts (o : call) : option (list cstr) := match o with Setcred true _ args | Open args => Some args | _ => None end.
(** Some call so far asked for revocation. *)
Definition asks (l : list (env * call)) : Prop := exists E o args, In (E, o) l /\ starts o = Some args /\ In (lit "revoke") args.
(** Sessions open, those of other threads included. *)
Fixpoint sessions (l : list (env * call)) : Z :=
  match l with
  | [] => 0
  | (_, Open _) :: l => sessions l + 1
  | (_, Close) :: l => sessions l - 1
  | (_, Others n) :: l => sessions l + n
  | _ :: l => sessions l
  end.
(** Serial numbers of keys are not zero, and a user's ids are not the number that stands for none. *)
Definition sound (E : env) : Prop := e_join E <> 0 /\ forall u g, e_pw E = Some (u, g) -> u <> NOID /\ g <> NOID.
(** Ids can be set back. *)
Definition returns (E : env) : Prop := e_undo E = true /\ e_uid_back E = true /\ e_gid_back E = true.

(** ** One call *)
Definition holds (s : kst) (k : option (Z * Z * Z)) : Prop := match k with Some (r, u, g) => my s = r /\ 0 < r /\ as_uid s = u /\ as_gid s = g /\ u <> NOID /\ g <> NOID | None => my s = 0 end.
Definition inv (s : kst) : Prop := exists k, lawful (log s) k /\ holds s k.
Lemma lawful_unique : forall l a, lawful l a -> forall b, lawful l b -> a = b.
Proof. intros l a A. induction A as [|l r u g d A IH P|l r u g d A IH]; intros b B; inversion B; subst; reflexivity. Qed.
Ltac cases := repeat (cbn [creds_of my counter revoke as_uid as_gid log with_creds with_my with_counter happened ru eu su rg eg sg fst snd andb orb negb setreuid setregid setresuid setre]; match goal with
  | |- context [if ?b then _ else _] => match b with context [if _ then _ else _] => fail 1 | _ => destruct b eqn:? end end).
Lemma regid_real : forall g c, g <> NOID -> setregid g NOID c = mkCreds (ru c) (eu c) (su c) g (eg c) (eg c).
Proof. intros g c N. unfold setregid, setre. rewrite (proj2 (Z.eqb_neq g NOID) N). reflexivity. Qed.
Lemma reuid_real : forall u c, u <> NOID -> setreuid u NOID c = mkCreds u (eu c) (eu c) (rg c) (eg c) (sg c).
Proof. intros u c N. unfold setreuid, setre. rewrite (proj2 (Z.eqb_neq u NOID) N). reflexivity. Qed.
Lemma regid_eff : forall g c, g <> NOID -> setregid NOID g c = mkCreds (ru c) (eu c) (su c) (rg c) g (if g =? rg c then sg c else g).
Proof. intros g c N. unfold setregid, setre. rewrite (proj2 (Z.eqb_neq g NOID) N), Z.eqb_refl. cbn [negb orb andb]. destruct (g =? rg c); reflexivity. Qed.
Lemma reuid_eff : forall u c, u <> NOID -> setreuid NOID u c = mkCreds (ru c) u (if u =? ru c then su c else u) (rg c) (eg c) (sg c).
Proof. intros u c N. unfold setreuid, setre. rewrite (proj2 (Z.eqb_neq u NOID) N), Z.eqb_refl. cbn [negb orb andb]. destruct (u =? ru c); reflexivity. Qed.
Lemma resuid_eff : forall u v c, u <> NOID -> v <> NOID -> setresuid NOID u v c = mkCreds (ru c) u v (rg c) (eg c) (sg c).
Proof. intros u v c N M. unfold setresuid. rewrite (proj2 (Z.eqb_neq u NOID) N), (proj2 (Z.eqb_neq v NOID) M), Z.eqb_refl. reflexivity. Qed.
Lemma kill_spec : forall E x s k, lawful (log s) k -> holds s k ->
  (k = None -> kill_keyrings E x s = (PAM_SUCCESS, s)) /\
  forall r u g, k = Some (r, u, g) ->
    (e_gid E = true -> e_uid E = true -> log (snd (kill_keyrings E x s)) = Revoke r u g (e_revoke E) :: log s /\ my (snd (kill_keyrings E x s)) = 0) /\
    (log (snd (kill_keyrings E x s)) = Revoke r u g (e_revoke E) :: log s /\ my (snd (kill_keyrings E x s)) = 0 \/
     log (snd (kill_keyrings E x s)) = log s /\ my (snd (kill_keyrings E x s)) = my s /\ as_uid (snd (kill_keyrings E x s)) = as_uid s /\ as_gid (snd (kill_keyrings E x s)) = as_gid s) /\
    revoke (snd (kill_keyrings E x s)) = revoke s /\ counter (snd (kill_keyrings E x s)) = counter s.
Proof.
  intros E x s k L H. split; [intros ->; cbn in H; unfold kill_keyrings; rewrite H; reflexivity|]. intros r u g ->. destruct H as (H1 & H2 & H3 & H4 & H5 & H6).
  unfold kill_keyrings. rewrite H1, (proj2 (Z.ltb_lt 0 r) H2), H3, H4.
  destruct (negb (g =? eg (creds_of s)) && negb (e_gid E)) eqn:C1; [apply andb_true_iff in C1; destruct C1 as (_ & C1); apply negb_true_iff in C1; cbn [snd]; repeat split; auto; congruence|].
  match goal with |- context [if ?c then with_creds s ?w else s] => set (s1 := if c then with_creds s w else s) end.
  assert (S1 : log s1 = log s /\ my s1 = r /\ counter s1 = counter s /\ revoke s1 = revoke s /\ as_uid s1 = u /\ as_gid s1 = g /\ eu (creds_of s1) = eu (creds_of s) /\ eg (creds_of s1) = g).
  { subst s1. destruct (Z.eqb_spec g (eg (creds_of s))) as [EG|EG]; cbn [negb]; cbn [with_creds log my counter revoke as_uid as_gid creds_of]; repeat split; auto. unfold setregid, setre. cbn. rewrite (proj2 (Z.eqb_neq g NOID) H6). reflexivity. }
  clearbody s1. destruct S1 as (L1 & M1 & K1 & R1 & A1 & B1 & U1 & G1). rewrite A1.
  destruct (negb (u =? eu (creds_of s)) && negb (e_uid E)) eqn:C2.
  { apply andb_true_iff in C2; destruct C2 as (_ & C2); apply negb_true_iff in C2. destruct (negb (eg (creds_of s1) =? eg (creds_of s)) && e_undo E); cbn; (split; [intros _ D; congruence|]; split; [right; repeat split; congruence|split; congruence]). }
  match goal with |- context [if ?c then with_creds s1 ?w else s1] => set (s2 := if c then with_creds s1 w else s1) end.
  assert (S2 : log s2 = log s /\ my s2 = r /\ counter s2 = counter s /\ revoke s2 = revoke s /\ as_uid s2 = u /\ as_gid s2 = g /\ eu (creds_of s2) = u /\ eg (creds_of s2) = g).
  { subst s2. destruct (Z.eqb_spec u (eu (creds_of s))) as [EG|EG]; cbn [negb]; cbn [with_creds log my counter revoke as_uid as_gid creds_of]; repeat split; auto; try congruence. unfold setresuid. cbn. rewrite (proj2 (Z.eqb_neq u NOID) H5). reflexivity. }
  clearbody s2. destruct S2 as (L2 & M2 & K2 & R2 & A2 & B2 & U2 & G2). cbn zeta. rewrite M2, U2, G2.
  destruct (negb (u =? eu (creds_of s)) && e_uid_back E), (negb (g =? eg (creds_of s)) && e_gid_back E); cbn [snd with_my with_creds happened log my revoke counter]; rewrite L2; repeat split; auto.
Qed.
Lemma init_spec : forall E f x s, my s = 0 -> e_join E <> 0 ->
  creds_of (snd (init_keyrings E f x s)) = creds_of s /\ revoke (snd (init_keyrings E f x s)) = revoke s /\ counter (snd (init_keyrings E f x s)) = counter s /\
  as_uid (snd (init_keyrings E f x s)) = as_uid s /\ as_gid (snd (init_keyrings E f x s)) = as_gid s /\
  ((log (snd (init_keyrings E f x s)) = log s /\ my (snd (init_keyrings E f x s)) = 0 /\ (f = true -> fst (init_keyrings E f x s) = x)) \/
   (log (snd (init_keyrings E f x s)) = Link (e_link E) :: Join (e_join E) (ru (creds_of s)) (rg (creds_of s)) :: log s /\ my (snd (init_keyrings E f x s)) = e_join E /\ 0 < e_join E)).
Proof.
  intros E f x s M J. unfold init_keyrings. destruct (Z.ltb_spec (e_join E) 0) as [N|N]; destruct f; [|destruct (e_session E <? 0), (e_usession E <? 0), (negb (e_session E =? e_usession E))| |destruct (e_session E <? 0), (e_usession E <? 0), (negb (e_session E =? e_usession E))];
    cbn [fst snd happened with_my creds_of revoke counter as_uid as_gid log my]; repeat (split; [reflexivity|]);
    first [left; split; [reflexivity|]; split; [exact M|]; first [intros _; reflexivity|intro; discriminate]|right; split; [reflexivity|]; split; [reflexivity|lia]].
Qed.
Definition quiet (s s' : kst) : Prop := log s' = log s /\ my s' = my s /\ as_uid s' = as_uid s /\ as_gid s' = as_gid s.
Lemma keyinit_spec : forall E args x s k, lawful (log s) k -> holds s k -> sound E -> x <> PAM_SUCCESS ->
  let s' := snd (do_keyinit E args x s) in
  revoke s' = (revoke s || existsb (streq (lit "revoke")) args) /\ counter s' = counter s /\
  match k with
  | Some _ => quiet s s' /\ fst (do_keyinit E args x s) = PAM_SUCCESS
  | None =>
      (log s' = log s /\ my s' = 0 /\ (existsb (streq (lit "force")) args = true -> fst (do_keyinit E args x s) <> PAM_SUCCESS)) \/
      exists u g, e_user E = PAM_SUCCESS /\ e_pw E = Some (u, g) /\ log s' = Link (e_link E) :: Join (e_join E) u g :: log s /\ my s' = e_join E /\ 0 < e_join E /\ as_uid s' = u /\ as_gid s' = g
  end.
Proof.
  intros E args x s k L H (J & ID) X. destruct k as [((r & u) & g)|]; cbn [holds] in H.
  - destruct H as (H1 & H2 & H3 & H4 & H5 & H6). unfold do_keyinit. cbn [my]. rewrite H1, (proj2 (Z.ltb_lt 0 r) H2). cbn. repeat split; auto.
  - unfold do_keyinit. cbn [my]. rewrite H. cbn [Z.ltb Z.compare]. destruct (Z.eqb_spec (e_user E) PAM_SUCCESS) as [EU|EU]; cbn [negb]; [|cbn; repeat split; auto; left; repeat split; auto].
    destruct (e_pw E) as [(u, g)|] eqn:EP; [|cbn; repeat split; auto; left; repeat split; auto; discriminate]. destruct (ID u g eq_refl) as (NU & NG).
    cbn [creds_of ru rg my counter revoke as_uid as_gid log].
    destruct (negb (g =? rg (creds_of s)) && negb (e_gid E)) eqn:C1; [cbn; repeat split; auto; left; repeat split; auto|].
    match goal with |- context [if negb (g =? rg (creds_of s)) then with_creds ?z ?w else ?z'] => set (s1 := if negb (g =? rg (creds_of s)) then with_creds z w else z') end.
    assert (S1 : log s1 = log s /\ my s1 = 0 /\ counter s1 = counter s /\ revoke s1 = (revoke s || existsb (streq (lit "revoke")) args) /\ as_uid s1 = u /\ as_gid s1 = g /\ ru (creds_of s1) = ru (creds_of s) /\ rg (creds_of s1) = g).
    { subst s1. destruct (Z.eqb_spec g (rg (creds_of s))) as [EG|EG]; cbn [negb]; cbn [with_creds log my counter revoke as_uid as_gid creds_of]; repeat split; auto; cbn [creds_of]; try congruence; rewrite regid_real by exact NG; reflexivity. }
    clearbody s1. destruct S1 as (L1 & M1 & K1 & R1 & A1 & B1 & U1 & G1).
    destruct (negb (u =? ru (creds_of s)) && negb (e_uid E)) eqn:C2; [destruct (e_undo E); cbn; repeat split; auto; left; repeat split; auto|].
    match goal with |- context [if negb (u =? ru (creds_of s)) then with_creds s1 ?w else s1] => set (s2 := if negb (u =? ru (creds_of s)) then with_creds s1 w else s1) end.
    assert (S2 : log s2 = log s /\ my s2 = 0 /\ counter s2 = counter s /\ revoke s2 = (revoke s || existsb (streq (lit "revoke")) args) /\ as_uid s2 = u /\ as_gid s2 = g /\ ru (creds_of s2) = u /\ rg (creds_of s2) = g).
    { subst s2. destruct (Z.eqb_spec u (ru (creds_of s))) as [EG|EG]; cbn [negb]; cbn [with_creds log my counter revoke as_uid as_gid creds_of]; repeat split; auto; try congruence; rewrite reuid_real by exact NU; try reflexivity; congruence. }
    clearbody s2. destruct S2 as (L2 & M2 & K2 & R2 & A2 & B2 & U2 & G2).
    pose proof (init_spec E (existsb (streq (lit "force")) args) x s2 M2 J) as I. destruct (init_keyrings E (existsb (streq (lit "force")) args) x s2) as (ret, s3) eqn:EI. cbn [fst snd] in I. destruct I as (IC & IR & IK & IU & IG & I).
    cbn zeta. set (b1 := negb (u =? ru (creds_of s))) in *. set (b2 := negb (g =? rg (creds_of s))) in *. clearbody b1 b2.
    match goal with |- context [if ?c then with_creds s3 ?w else s3] => set (s4 := if c then with_creds s3 w else s3) end.
    assert (S4 : log s4 = log s3 /\ my s4 = my s3 /\ counter s4 = counter s3 /\ revoke s4 = revoke s3 /\ as_uid s4 = as_uid s3 /\ as_gid s4 = as_gid s3) by (subst s4; destruct (b1 && e_uid_back E); cbn; repeat split; auto).
    clearbody s4. destruct S4 as (L4 & M4 & K4 & R4 & A4 & B4).
    match goal with |- context [if ?c then with_creds s4 ?w else s4] => set (s5 := if c then with_creds s4 w else s4) end.
    assert (S5 : log s5 = log s3 /\ my s5 = my s3 /\ counter s5 = counter s3 /\ revoke s5 = revoke s3 /\ as_uid s5 = as_uid s3 /\ as_gid s5 = as_gid s3) by (subst s5; destruct (b2 && e_gid_back E); cbn; repeat split; auto).
    clearbody s5. destruct S5 as (L5 & M5 & K5 & R5 & A5 & B5). cbn [fst snd].
    split; [congruence|]. split; [congruence|]. destruct I as [(I1 & I2 & I3)|(I1 & I2 & I3)].
    + left. split; [congruence|]. split; [congruence|]. intro F. rewrite (I3 F). destruct (b1 && negb (e_uid_back E)), (b2 && negb (e_gid_back E)); exact X.
    + right. exists u, g. repeat split; try congruence; lia.
Qed.
Lemma step_inv : forall E o s, sound E -> inv s -> inv (snd (step E o s)).
Proof.
  intros E o s SD (k & L & H). assert (KI : forall args x s0, x <> PAM_SUCCESS -> lawful (log s0) k -> holds s0 k -> inv (snd (do_keyinit E args x s0))).
  { intros args x s0 X L0 H0. destruct (keyinit_spec E args x s0 k L0 H0 SD X) as (_ & _ & S). destruct k as [((r & u) & g)|].
    - destruct S as ((S1 & S2 & S3 & S4) & _). exists (Some (r, u, g)). rewrite S1. split; [exact L0|]. cbn [holds] in *. rewrite S2, S3, S4. exact H0.
    - destruct S as [(S1 & S2 & _)|(u & g & _ & P & S1 & S2 & S3 & S4 & S5)]; [exists None; rewrite S1; split; assumption|].
      exists (Some (e_join E, u, g)). rewrite S1. split; [constructor; assumption|]. destruct (proj2 SD u g P). cbn [holds]. auto 10. }
  assert (KK : forall x s0, lawful (log s0) k -> holds s0 k -> inv (snd (kill_keyrings E x s0))).
  { intros x s0 L0 H0. destruct (kill_spec E x s0 k L0 H0) as (N & S). destruct k as [((r & u) & g)|]; [|rewrite (N eq_refl); exists None; split; assumption].
    destruct (S r u g eq_refl) as (_ & [(S1 & S2)|(S1 & S2 & S3 & S4)] & _).
    - exists None. rewrite S1. split; [constructor; exact L0|exact S2].
    - exists (Some (r, u, g)). rewrite S1. split; [exact L0|]. cbn [holds] in *. rewrite S2, S3, S4. exact H0. }
  destruct o as [|e d args|args| |n]; cbn [step].
  - exists k; split; assumption.
  - destruct e; [apply KI; [discriminate|assumption|assumption]|]. destruct (d && (0 <? my s) && revoke s); [apply KK; assumption|exists k; split; assumption].
  - apply KI; [discriminate|exact L|destruct k as [((r & u) & g)|]; exact H].
  - cbn [snd]. match goal with |- context [if ?c then _ else _] => destruct c end; [apply KK; [exact L|destruct k as [((r & u) & g)|]; exact H]|exists k; split; [exact L|destruct k as [((r & u) & g)|]; exact H]].
  - exists k. split; [exact L|destruct k as [((r & u) & g)|]; exact H].
Qed.
Lemma run_snoc : forall l E o s, run (l ++ [(E, o)]) s = snd (step E o (run l s)).
Proof. intros. unfold run. rewrite fold_left_app. reflexivity. Qed.
Lemma run_inv : forall c l, Forall (fun x => sound (fst x)) l -> inv (run l (start c)).
Proof.
  intros c l. induction l as [|[E o] l IH] using rev_ind; intro F; [exists None; split; [constructor|reflexivity]|]. rewrite run_snoc. apply Forall_app in F. destruct F as (F1 & F2). inversion F2 as [|? ? F3 _]; subst. apply step_inv; [exact F3|apply IH; exact F1].
Qed.

(** ** Theorems *)
(** Whatever is called, in any order and with any failures: there is at most one keyring at a time, and each is revoked once at most, as the user and
    group it was made for. *)
Theorem keyring_history : forall c l, Forall (fun x => sound (fst x)) l -> exists k, lawful (log (run l (start c))) k.
Proof. intros c l F. destruct (run_inv c l F) as (k & L & _). exists k. exact L. Qed.
Lemma step_log : forall E o s, sound E -> inv s ->
  log (snd (step E o s)) = log s \/ (exists r u g b, log (snd (step E o s)) = Revoke r u g b :: log s /\ revoke s = true) \/
  exists args u g, starts o = Some args /\ e_user E = PAM_SUCCESS /\ e_pw E = Some (u, g) /\ log (snd (step E o s)) = Link (e_link E) :: Join (e_join E) u g :: log s.
Proof.
  intros E o s SD (k & L & H).
  assert (KI : forall args x s0, x <> PAM_SUCCESS -> lawful (log s0) k -> holds s0 k -> log (snd (do_keyinit E args x s0)) = log s0 \/
      exists u g, e_user E = PAM_SUCCESS /\ e_pw E = Some (u, g) /\ log (snd (do_keyinit E args x s0)) = Link (e_link E) :: Join (e_join E) u g :: log s0).
  { intros args x s0 X L0 H0. destruct (keyinit_spec E args x s0 k L0 H0 SD X) as (_ & _ & S). destruct k as [((r & u) & g)|]; [left; apply S|].
    destruct S as [(S1 & _)|(u & g & S0 & P & S1 & _)]; [left; exact S1|right; exists u, g; auto]. }
  assert (KK : forall x s0, lawful (log s0) k -> holds s0 k -> log (snd (kill_keyrings E x s0)) = log s0 \/ exists r u g b, log (snd (kill_keyrings E x s0)) = Revoke r u g b :: log s0).
  { intros x s0 L0 H0. destruct (kill_spec E x s0 k L0 H0) as (N & S). destruct k as [((r & u) & g)|]; [|rewrite (N eq_refl); left; reflexivity].
    destruct (S r u g eq_refl) as (_ & [(S1 & S2)|(S1 & S2 & S3 & S4)] & _); [right; exists r, u, g, (e_revoke E); exact S1|left; exact S1]. }
  assert (HC : forall n, holds (with_counter s n) k) by (intro n; destruct k as [((r & u) & g)|]; exact H).
  destruct o as [|e d args|args| |n]; cbn [step starts].
  - left. reflexivity.
  - destruct e.
    + destruct (KI args PAM_CRED_ERR s ltac:(discriminate) L H) as [X|(u & g & A & B & C)]; [left; exact X|right; right; exists args, u, g; auto].
    + destruct (d && (0 <? my s) && revoke s) eqn:B; [|left; reflexivity]. apply andb_true_iff in B. destruct B as (_ & B). destruct (KK PAM_CRED_ERR s L H) as [X|(r & u & g & b & X)]; [left; exact X|right; left; exists r, u, g, b; auto].
  - destruct (KI args PAM_SESSION_ERR (with_counter s (counter s + 1)) ltac:(discriminate) L (HC _)) as [X|(u & g & A & B & C)]; [left; exact X|right; right; exists args, u, g; auto].
  - cbn [snd]. match goal with |- context [if ?c then _ else _] => destruct c eqn:B end; [|left; reflexivity]. apply andb_true_iff in B. destruct B as (_ & B).
    destruct (KK PAM_SESSION_ERR (with_counter s (counter s - 1)) L (HC _)) as [X|(r & u & g & b & X)]; [left; exact X|right; left; exists r, u, g, b; auto].
  - left. reflexivity.
Qed.
(** Every keyring is made during a call that knows the user, for the user and group of that call. *)
Theorem keyring_owner : forall c l r u g, Forall (fun x => sound (fst x)) l -> In (Join r u g) (log (run l (start c))) ->
  exists E o args, In (E, o) l /\ starts o = Some args /\ e_user E = PAM_SUCCESS /\ e_pw E = Some (u, g) /\ e_join E = r.
Proof.
  intros c l r u g. induction l as [|[E o] l IH] using rev_ind; intros F I; [destruct I|]. apply Forall_app in F. destruct F as (F1 & F2). inversion F2 as [|? ? F3 _]; subst. cbn [fst] in F3.
  assert (OLD : In (Join r u g) (log (run l (start c))) -> exists E0 o0 args, In (E0, o0) (l ++ [(E, o)]) /\ starts o0 = Some args /\ e_user E0 = PAM_SUCCESS /\ e_pw E0 = Some (u, g) /\ e_join E0 = r).
  { intro X. destruct (IH F1 X) as (E0 & o0 & args & Y & Z0). exists E0, o0, args. split; [apply in_or_app; left; exact Y|exact Z0]. }
  rewrite run_snoc in I. destruct (step_log E o (run l (start c)) F3 (run_inv c l F1)) as [X|[(r0 & u0 & g0 & b & X & _)|(args & u0 & g0 & S & U & P & X)]]; rewrite X in I.
  - apply OLD, I.
  - destruct I as [I|I]; [discriminate|apply OLD, I].
  - destruct I as [I|[I|I]]; [discriminate| |apply OLD, I]. injection I as <- <- <-. exists E, o, args. split; [apply in_or_app; right; left; reflexivity|auto].
Qed.
Lemma step_revoke : forall E o s, sound E -> inv s -> revoke (snd (step E o s)) = (revoke s || match starts o with Some args => existsb (streq (lit "revoke")) args | None => false end) /\
  counter (snd (step E o s)) = counter s + match o with Open _ => 1 | Close => -1 | Others n => n | _ => 0 end.
Proof.
  intros E o s SD (k & L & H).
  assert (KK : forall x s0, lawful (log s0) k -> holds s0 k -> revoke (snd (kill_keyrings E x s0)) = revoke s0 /\ counter (snd (kill_keyrings E x s0)) = counter s0).
  { intros x s0 L0 H0. destruct (kill_spec E x s0 k L0 H0) as (N & S). destruct k as [((r & u) & g)|]; [|rewrite (N eq_refl); auto]. destruct (S r u g eq_refl) as (_ & _ & A & B). auto. }
  assert (HC : forall n, holds (with_counter s n) k) by (intro n; destruct k as [((r & u) & g)|]; exact H).
  destruct o as [|e d args|args| |n]; cbn [step starts]; rewrite ?orb_false_r, ?Z.add_0_r.
  - auto.
  - destruct e; [destruct (keyinit_spec E args PAM_CRED_ERR s k L H SD ltac:(discriminate)) as (A & B & _); auto|]. rewrite orb_false_r. destruct (d && (0 <? my s) && revoke s); [apply KK; assumption|auto].
  - destruct (keyinit_spec E args PAM_SESSION_ERR (with_counter s (counter s + 1)) k L (HC _) SD ltac:(discriminate)) as (A & B & _). rewrite A, B. auto.
  - cbn [snd]. match goal with |- context [if ?c then _ else _] => destruct c end; [|cbn; split; [reflexivity|lia]]. destruct (KK PAM_SESSION_ERR (with_counter s (counter s - 1)) L (HC _)) as (A & B). rewrite A, B. cbn. split; [reflexivity|lia].
  - auto.
Qed.
Lemma run_revoke : forall c l, Forall (fun x => sound (fst x)) l -> revoke (run l (start c)) = true <-> asks l.
Proof.
  intros c l. induction l as [|[E o] l IH] using rev_ind; intros F; [split; [discriminate|intros (E & o & args & [] & _)]|]. apply Forall_app in F. destruct F as (F1 & F2). inversion F2 as [|? ? F3 _]; subst. cbn [fst] in F3.
  rewrite run_snoc, (proj1 (step_revoke E o _ F3 (run_inv c l F1))), orb_true_iff, (IH F1). split.
  - intros [(E0 & o0 & args & X & Y)|X]; [exists E0, o0, args; split; [apply in_or_app; left; exact X|exact Y]|]. destruct (starts o) as [args|] eqn:S; [|discriminate]. apply existsb_exists in X. destruct X as (w & W & X). apply streq_eq in X. subst w.
    exists E, o, args. split; [apply in_or_app; right; left; reflexivity|auto].
  - intros (E0 & o0 & args & X & Y & W). apply in_app_or in X. destruct X as [X|[X|[]]]; [left; exists E0, o0, args; auto|]. injection X as <- <-. right. rewrite Y. apply existsb_exists. exists (lit "revoke"). split; [exact W|reflexivity].
Qed.
Lemma run_counter : forall c l, Forall (fun x => sound (fst x)) l -> counter (run l (start c)) = sessions l.
Proof.
  intros c l. assert (A : forall a b, sessions (a ++ b) = sessions a + sessions b).
  { induction a as [|[E o] a IHa]; intro b; [reflexivity|]. cbn [app sessions]. rewrite IHa. destruct o; lia. }
  induction l as [|[E o] l IH] using rev_ind; intros F; [reflexivity|]. apply Forall_app in F. destruct F as (F1 & F2). inversion F2 as [|? ? F3 _]; subst. cbn [fst] in F3.
  rewrite run_snoc, (proj2 (step_revoke E o _ F3 (run_inv c l F1))), (IH F1), A. cbn [sessions]. destruct o; lia.
Qed.
(** A keyring is revoked only when some call asked for it. *)
Theorem revoked_when_asked : forall c l r u g b, Forall (fun x => sound (fst x)) l -> In (Revoke r u g b) (log (run l (start c))) -> asks l.
Proof.
  intros c l r u g b. induction l as [|[E o] l IH] using rev_ind; intros F I; [destruct I|]. apply Forall_app in F. destruct F as (F1 & F2). inversion F2 as [|? ? F3 _]; subst. cbn [fst] in F3.
  assert (UP : asks l -> asks (l ++ [(E, o)])) by (intros (E0 & o0 & args & X & Y); exists E0, o0, args; split; [apply in_or_app; left; exact X|exact Y]).
  rewrite run_snoc in I. destruct (step_log E o (run l (start c)) F3 (run_inv c l F1)) as [X|[(r0 & u0 & g0 & b0 & X & R)|(args & u0 & g0 & S & U & P & X)]]; rewrite X in I.
  - apply UP, (IH F1), I.
  - apply UP. apply (run_revoke c l F1). exact R.
  - destruct I as [I|[I|I]]; [discriminate|discriminate|]. apply UP, (IH F1), I.
Qed.
(** Closing a session: the keyring stays while sessions are open. At the last one it is revoked, if some call asked for that. *)
Theorem close_revokes : forall c l E r u g, Forall (fun x => sound (fst x)) l -> sound E -> lawful (log (run l (start c))) (Some (r, u, g)) ->
  fst (step E Close (run l (start c))) = PAM_SUCCESS /\
  (1 < sessions l \/ ~ asks l -> log (snd (step E Close (run l (start c)))) = log (run l (start c))) /\
  (sessions l <= 1 -> asks l -> e_gid E = true -> e_uid E = true -> log (snd (step E Close (run l (start c)))) = Revoke r u g (e_revoke E) :: log (run l (start c))).
Proof.
  intros c l E r u g F SD L. split; [reflexivity|]. destruct (run_inv c l F) as (k & L' & H). rewrite (lawful_unique _ _ L' _ L) in H. clear k L'. pose proof (run_revoke c l F) as R. pose proof (run_counter c l F) as K.
  set (s := run l (start c)) in *. clearbody s. cbn [step snd with_counter counter my revoke]. rewrite K. split.
  - intro N. assert (X : (sessions l - 1 <=? 0) && (0 <? my s) && revoke s = false); [|rewrite X; reflexivity].
    destruct N as [N|N]; [rewrite (proj2 (Z.leb_gt (sessions l - 1) 0)) by lia; reflexivity|]. destruct (revoke s); [exfalso; apply N, R; reflexivity|apply andb_false_r].
  - intros N A G U. apply R in A. pose proof H as (H1 & H2 & _). rewrite A, H1, (proj2 (Z.leb_le (sessions l - 1) 0)), (proj2 (Z.ltb_lt 0 r)) by lia. cbn [andb].
    destruct (kill_spec E PAM_SESSION_ERR (with_counter s (sessions l - 1)) (Some (r, u, g)) L H) as (_ & S). destruct (S r u g eq_refl) as (S1 & _). apply (S1 G U).
Qed.
(** With the option force, success means that a keyring is there. With a keyring there, the call does nothing. *)
Theorem forced_keyring : forall c l E o args, Forall (fun x => sound (fst x)) l -> sound E -> starts o = Some args ->
  (In (lit "force") args -> fst (step E o (run l (start c))) = PAM_SUCCESS -> exists k, lawful (log (run (l ++ [(E, o)]) (start c))) (Some k)) /\
  (forall k, lawful (log (run l (start c))) (Some k) -> fst (step E o (run l (start c))) = PAM_SUCCESS /\ log (run (l ++ [(E, o)]) (start c)) = log (run l (start c))).
Proof.
  intros c l E o args F SD S. rewrite run_snoc. destruct (run_inv c l F) as (k & L & H). set (s := run l (start c)) in *. clearbody s.
  assert (HC : forall n, holds (with_counter s n) k) by (intro n; destruct k as [((r & u) & g)|]; exact H).
  assert (KI : forall x s0, x <> PAM_SUCCESS -> log s0 = log s -> holds s0 k -> (In (lit "force") args -> fst (do_keyinit E args x s0) = PAM_SUCCESS -> exists k, lawful (log (snd (do_keyinit E args x s0))) (Some k)) /\
    (forall k, lawful (log s) (Some k) -> fst (do_keyinit E args x s0) = PAM_SUCCESS /\ log (snd (do_keyinit E args x s0)) = log s)).
  { intros x s0 X L0 H0. rewrite <- L0 in L. destruct (keyinit_spec E args x s0 k L H0 SD X) as (_ & _ & T). rewrite <- L0. destruct k as [k|].
    - destruct T as ((T1 & _) & T2). rewrite T1. split; [intros _ _; exists k; exact L|intros k' _; auto].
    - split; [|intros k K; pose proof (lawful_unique _ _ L _ K); discriminate]. intros I R. destruct T as [(_ & _ & T)|(u & g & _ & _ & T & _ & P & _)].
      + exfalso. apply T; [|exact R]. apply existsb_exists. exists (lit "force"). split; [exact I|reflexivity].
      + exists (e_join E, u, g). rewrite T. constructor; [exact L|exact P]. }
  destruct o as [|e d a|a| |n]; try discriminate; cbn [starts step] in *.
  - destruct e; [|discriminate]. injection S as ->. apply KI; [discriminate|reflexivity|exact H].
  - injection S as ->. apply KI; [discriminate|reflexivity|apply HC].
Qed.

(** ** Ids *)
Definition proper (c : creds) : Prop := ru c <> NOID /\ eu c <> NOID /\ rg c <> NOID /\ eg c <> NOID.
(** Real and effective ids are the same; saved ids too when they agree with the effective ids, except the saved gid when a keyring is revoked. *)
Definition kept (asked : Prop) (a b : creds) : Prop :=
  ru b = ru a /\ eu b = eu a /\ rg b = rg a /\ eg b = eg a /\ (su a = eu a -> su b = su a) /\ (sg a = eg a -> rg a <> eg a \/ ~ asked -> sg b = sg a).
Lemma kill_kept : forall E x s k, returns E -> proper (creds_of s) -> holds s k -> kept True (creds_of s) (creds_of (snd (kill_keyrings E x s))).
Proof.
  intros E x s k (R1 & R2 & R3) (P1 & P2 & P3 & P4) H. assert (ID : kept True (creds_of s) (creds_of s)) by (repeat split; auto).
  destruct k as [((r & u) & g)|]; [|cbn in H; unfold kill_keyrings; rewrite H; exact ID]. destruct H as (H1 & H2 & H3 & H4 & H5 & H6). unfold kill_keyrings. rewrite H1, (proj2 (Z.ltb_lt 0 r) H2), H3, H4, R1, R2, R3, !andb_true_r.
  destruct s as [c m n v a b lg]. cbn [creds_of my as_uid as_gid] in *. subst m a b. destruct c as [c1 c2 c3 c4 c5 c6]. cbn [ru eu su rg eg sg] in *.
  destruct (Z.eqb_spec g c5) as [EG|EG]; destruct (Z.eqb_spec u c2) as [EU|EU]; cbn [negb andb]; destruct (e_gid E), (e_uid E); cbn [negb andb]; cbn zeta; cbn [with_creds with_my happened creds_of as_uid as_gid my];
    rewrite ?regid_eff by assumption; rewrite ?resuid_eff by assumption; rewrite ?reuid_eff by assumption; cbn [ru eu su rg eg sg]; rewrite ?Z.eqb_refl; cbn [snd with_creds with_my happened creds_of]; try exact ID.
  all: try rewrite ?regid_eff by assumption; cbn [ru eu su rg eg sg]; rewrite ?(proj2 (Z.eqb_neq g c5) EG); cbn [negb snd with_creds with_my happened creds_of]; try exact ID.
  all: unfold kept; cbn [ru eu su rg eg sg]; repeat split; auto.
  all: intros; subst; repeat match goal with |- context [?a =? ?b] => destruct (Z.eqb_spec a b) end; try congruence; try tauto.
  all: match goal with X : _ \/ ~ True |- _ => destruct X; [congruence|tauto] end.
Qed.
Lemma keyinit_kept : forall E args x s, returns E -> sound E -> proper (creds_of s) -> kept False (creds_of s) (creds_of (snd (do_keyinit E args x s))).
Proof.
  intros E args x s (R1 & R2 & R3) (J & SD) (P1 & P2 & P3 & P4). assert (ID : kept False (creds_of s) (creds_of s)) by (repeat split; auto).
  unfold do_keyinit. cbn [my]. destruct (0 <? my s); [exact ID|]. destruct (e_user E =? PAM_SUCCESS); cbn [negb]; [|exact ID]. destruct (e_pw E) as [(u, g)|] eqn:EP; [|exact ID]. destruct (SD u g eq_refl) as (NU & NG).
  cbn [creds_of]. rewrite R1, R2, R3, !andb_true_r. cbn [negb]. rewrite !andb_false_r.
  destruct (negb (g =? rg (creds_of s)) && negb (e_gid E)); [exact ID|].
  assert (IC : forall f y z, creds_of (snd (init_keyrings E f y z)) = creds_of z).
  { intros f y z. unfold init_keyrings. destruct f, (e_join E <? 0), (e_session E <? 0), (e_usession E <? 0), (negb (e_session E =? e_usession E)); reflexivity. }
  destruct s as [c m n v a b lg]. cbn [creds_of my as_uid as_gid] in *. destruct c as [c1 c2 c3 c4 c5 c6]. cbn [ru eu su rg eg sg] in *.
  assert (T : forall f y z, init_keyrings E f y z = (fst (init_keyrings E f y z), snd (init_keyrings E f y z))) by (intros; destruct (init_keyrings E f y z); reflexivity).
  destruct (Z.eqb_spec g c4) as [EG|EG]; destruct (Z.eqb_spec u c1) as [EU|EU]; cbn [negb andb]; try (destruct (e_uid E); cbn [negb andb]); cbn zeta; try rewrite T; cbn [snd with_creds creds_of]; rewrite ?IC; cbn [with_creds creds_of];
    repeat (rewrite ?regid_real by assumption; rewrite ?reuid_real by assumption; cbn [ru eu su rg eg sg]); try exact ID; unfold kept; cbn [ru eu su rg eg sg]; repeat split; auto; intros; congruence.
Qed.
Lemma kept_weaken : forall (A B : Prop) a b, (A -> B) -> kept A a b -> kept B a b.
Proof. intros A B a b I (K1 & K2 & K3 & K4 & K5 & K6). repeat split; auto. intros S [N|N]; apply K6; auto. Qed.
Lemma kept_trans : forall A a b c, kept A a b -> kept A b c -> kept A a c.
Proof.
  intros A a b c (A1 & A2 & A3 & A4 & A5 & A6) (B1 & B2 & B3 & B4 & B5 & B6). repeat split; try congruence.
  - intro S. rewrite B5; [apply A5, S|rewrite (A5 S), A2; exact S].
  - intros S N. rewrite B6; [apply A6; assumption|rewrite (A6 S N), A4; exact S|destruct N as [N|N]; [left; congruence|right; exact N]].
Qed.
Lemma step_kept : forall E o s, returns E -> sound E -> inv s -> proper (creds_of s) -> kept (revoke s = true) (creds_of s) (creds_of (snd (step E o s))).
Proof.
  intros E o s R SD (k & L & H) P. assert (ID : kept (revoke s = true) (creds_of s) (creds_of s)) by (repeat split; auto).
  assert (HC : forall n, holds (with_counter s n) k) by (intro n; destruct k as [((r & u) & g)|]; exact H).
  destruct o as [|e d args|args| |n]; cbn [step].
  - exact ID.
  - destruct e; [apply (kept_weaken False); [tauto|apply keyinit_kept; assumption]|]. destruct (d && (0 <? my s) && revoke s) eqn:B; [|exact ID]. apply andb_true_iff in B. destruct B as (_ & B). apply (kept_weaken True); [auto|]. apply (kill_kept E PAM_CRED_ERR s k); assumption.
  - apply (kept_weaken False); [tauto|]. apply (keyinit_kept E args PAM_SESSION_ERR (with_counter s (counter s + 1))); assumption.
  - cbn [snd]. match goal with |- context [if ?c then _ else _] => destruct c eqn:B end; [|exact ID]. apply andb_true_iff in B. destruct B as (_ & B). apply (kept_weaken True); [auto|]. apply (kill_kept E PAM_SESSION_ERR (with_counter s (counter s - 1)) k); [assumption|assumption|apply HC].
  - exact ID.
Qed.
(** After any sequence of calls during which ids could be set back, the process has the ids it had. *)
Theorem keyinit_ids_kept : forall c l, Forall (fun x => sound (fst x) /\ returns (fst x)) l -> proper c -> kept (asks l) c (creds_of (run l (start c))).
Proof.
  intros c l. induction l as [|[E o] l IH] using rev_ind; intros F P; [repeat split; auto|]. apply Forall_app in F. destruct F as (F1 & F2). inversion F2 as [|? ? (F3 & F4) _]; subst. cbn [fst] in F3, F4.
  specialize (IH F1 P). assert (FS : Forall (fun x => sound (fst x)) l) by (eapply Forall_impl; [|exact F1]; intros x (X & _); exact X).
  assert (UP : asks l -> asks (l ++ [(E, o)])) by (intros (E0 & o0 & args & X & Y); exists E0, o0, args; split; [apply in_or_app; left; exact X|exact Y]).
  rewrite run_snoc. eapply kept_trans; [apply (kept_weaken (asks l)); [exact UP|exact IH]|]. apply (kept_weaken (revoke (run l (start c)) = true)); [rewrite run_revoke by exact FS; exact UP|].
  apply step_kept; [exact F4|exact F3|apply run_inv; exact FS|]. destruct IH as (A1 & A2 & A3 & A4 & _). destruct P as (P1 & P2 & P3 & P4). repeat split; congruence.
Qed.

(** ** Examples and what does not hold *)
Definition well (u g ring : Z) : env := mkEnv PAM_SUCCESS (Some (u, g)) true true true true true 7 false 7 ring true true.
Definition root : creds := mkCreds 0 0 0 0 0 0.
Lemma well_sound : forall u g r, u <> NOID -> g <> NOID -> r <> 0 -> sound (well u g r) /\ returns (well u g r).
Proof. intros u g r U G R. split; [split; [exact R|]|repeat split]. intros u0 g0 E. injection E as <- <-. auto. Qed.
Example keyring_history_example :
  let l := [(well 1000 100 55, Setcred true false [lit "force"; lit "revoke"]); (well 1000 100 56, Open [lit "force"]); (well 1000 100 57, Open []); (well 1000 100 58, Close); (well 1000 100 59, Close); (well 1001 100 60, Open [lit "force"])] in
  Forall (fun x => sound (fst x) /\ returns (fst x)) l /\ log (run l (start root)) = [Link true; Join 60 1001 100; Revoke 55 1000 100 true; Link true; Join 55 1000 100] /\
  sessions (firstn 4 l) = 1 /\ asks l /\ fst (step (well 1000 100 56) (Open [lit "force"]) (run (firstn 1 l) (start root))) = PAM_SUCCESS.
Proof.
  cbv zeta. split; [repeat (apply Forall_cons; [apply well_sound; discriminate|]); apply Forall_nil|]. split; [reflexivity|]. split; [reflexivity|]. split; [|reflexivity].
  eexists _, _, _. split; [left; reflexivity|]. split; [reflexivity|]. right. left. reflexivity.
Qed.
Example keyinit_ids_kept_example :
  proper root /\ creds_of (run [(well 1000 100 55, Open [lit "force"])] (start root)) = root /\
  creds_of (run [(well 1000 100 55, Open [lit "force"; lit "revoke"]); (well 1000 100 0, Close)] (start (mkCreds 500 0 0 500 0 0))) = mkCreds 500 0 0 500 0 0.
Proof. split; [repeat split; discriminate|]. split; reflexivity. Qed.
(** After a keyring was revoked the saved gid of the process can be that of the user. *)
Theorem saved_gid_kept_refuted : exists c l, Forall (fun x => sound (fst x) /\ returns (fst x)) l /\ c = root /\ sg (creds_of (run l (start c))) = 100.
Proof.
  exists root, [(well 1000 100 55, Open [lit "force"; lit "revoke"]); (well 1000 100 56, Close)]. split; [repeat (apply Forall_cons; [apply well_sound; discriminate|]); apply Forall_nil|]. split; reflexivity.
Qed.
(** Closing succeeds though the keyring was not revoked and the effective uid is still that of the user. *)
Theorem close_session_result_refuted : exists E s, sound E /\ fst (step E Close s) = PAM_SUCCESS /\ eu (creds_of s) = 0 /\ eu (creds_of (snd (step E Close s))) = 1000 /\
  log (snd (step E Close s)) = Revoke 55 1000 100 false :: log s /\ my (snd (step E Close s)) = 0.
Proof.
  exists (mkEnv PAM_SUCCESS (Some (1000, 100)) true true true false true 7 false 7 56 true false), (run [(well 1000 100 55, Open [lit "force"; lit "revoke"])] (start root)).
  split; [split; [discriminate|intros u g E; injection E as <- <-; split; discriminate]|]. repeat split; reflexivity.
Qed.
(** A keyring without the user's keys: the first call fails, the next one succeeds. *)
Theorem keyring_linked_refuted : exists E l, sound E /\ fst (step E (Setcred true false [lit "force"]) (start root)) = PAM_CRED_ERR /\ l = [(E, Setcred true false [lit "force"])] /\
  fst (step (well 1000 100 56) (Open [lit "force"]) (run l (start root))) = PAM_SUCCESS /\ log (run (l ++ [(well 1000 100 56, Open [lit "force"])]) (start root)) = [Link false; Join 55 1000 100].
Proof.
  exists (mkEnv PAM_SUCCESS (Some (1000, 100)) true true true true true 7 false 7 55 false true). eexists.
  split; [split; [discriminate|intros u g E; injection E as <- <-; split; discriminate]|]. split; [reflexivity|]. split; [reflexivity|]. split; reflexivity.
Qed.
(** A session of another user in the same process goes on with the keyring of the first. *)
Theorem own_keyring_refuted : exists l E, Forall (fun x => sound (fst x) /\ returns (fst x)) l /\ e_pw E = Some (1001, 100) /\ fst (step E (Open [lit "force"; lit "revoke"]) (run l (start root))) = PAM_SUCCESS /\
  log (run (l ++ [(E, Open [lit "force"; lit "revoke"])]) (start root)) = [Link true; Join 55 1000 100].
Proof.
  exists [(well 1000 100 55, Open [lit "force"; lit "revoke"])], (well 1001 100 56). split; [repeat (apply Forall_cons; [apply well_sound; discriminate|]); apply Forall_nil|]. repeat split; reflexivity.
Qed.

Print Assumptions keyring_history.
Print Assumptions keyring_owner.
Print Assumptions revoked_when_asked.
Print Assumptions close_revokes.
Print Assumptions forced_keyring.
Print Assumptions keyinit_ids_kept.
Print Assumptions saved_gid_kept_refuted.
Print Assumptions close_session_result_refuted.
Print Assumptions keyring_linked_refuted.
Print Assumptions own_keyring_refuted.
