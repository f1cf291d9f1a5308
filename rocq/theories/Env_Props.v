(** C18, C19: the PAM environment. *)
From Coq Require Import String Ascii List Arith ZArith Lia Bool.
From Verif Require Import Base Env_Model Env_Spec Env_Proofs.
Import ListNotations.
Local Open Scope Z_scope.

(** Environments an application can have: made at pam_start and changed by pam_putenv, any allocation
    failing. *)
Inductive lived : option environ -> Prop :=
| lived_start : forall env, make_env false false = (PAM_SUCCESS, env) -> lived env
| lived_put : forall env oom1 oom2 nv rv env', lived env -> is_cstr nv ->
    putenv oom1 oom2 env (Some nv) = Ok (rv, env') -> lived env'.

(** The same without allocation failures, together with the strings put, latest first. *)
Inductive put_history : option environ -> list cstr -> Prop :=
| ph_start : forall env, make_env false false = (PAM_SUCCESS, env) -> put_history env []
| ph_put : forall env nv rv env' puts, put_history env puts -> is_cstr nv ->
    putenv false false env (Some nv) = Ok (rv, env') -> put_history env' (nv :: puts).

Lemma lived_stores : forall env, lived env -> exists e al, env = Some e /\ stores e al.
Proof.
  intros env H. induction H as [env H|env oom1 oom2 nv rv env' H IH HC HP].
  - injection H as <-. eexists _, []. split; [reflexivity|]. apply make_env_stores. reflexivity.
  - destruct IH as (e & al & -> & HS). destruct (putenv_step e al nv oom1 oom2 HS HC) as (rv1 & e' & al' & E & HS' & _).
    rewrite E in HP. injection HP as _ <-. eauto.
Qed.

Lemma history_lived : forall env puts, put_history env puts -> lived env.
Proof. intros env puts H. induction H; [apply lived_start; assumption|eapply lived_put; eassumption]. Qed.

(** Each call does what the map semantics says, whatever allocation fails, without undefined behaviour. *)
Theorem putenv_is_a_map_update : forall env oom1 oom2 nv, lived env -> is_cstr nv ->
  exists rv env' m m', putenv oom1 oom2 env (Some nv) = Ok (rv, env') /\
    (forall n, name_ok n -> getenv env (Some n) = Ok (m n)) /\
    (forall n, name_ok n -> getenv env' (Some n) = Ok (m' n)) /\
    put_effect (oom1 || oom2) m nv rv m'.
Proof.
  intros env oom1 oom2 nv HL HC. destruct (lived_stores env HL) as (e & al & -> & HS).
  destruct (putenv_step e al nv oom1 oom2 HS HC) as (rv & e' & al' & E & HS' & HE).
  exists rv, (Some e'), (look al), (look al'). split; [exact E|]. split; [intros n HN; apply getenv_stores; auto|].
  split; [intros n HN; apply getenv_stores; auto|exact HE].
Qed.

Example map_update_example : exists env, lived env /\ getenv env (Some (lit "A")) = Ok (Some (lit "1")) /\
  exists env', putenv false true env (Some (lit "A=2")) = Ok (5, env') /\ getenv env' (Some (lit "A")) = Ok None.
Proof.
  eexists. split.
  - eapply lived_put with (nv := lit "A=1") (oom1 := false) (oom2 := false); [apply lived_start; reflexivity|vm_compute; intuition discriminate|vm_compute; reflexivity].
  - split; [vm_compute; reflexivity|]. eexists. split; vm_compute; reflexivity.
Qed.

Lemma is_prefix_join : forall n p, is_prefix (n ++ [c_eq]) p = true <-> exists v, p = n ++ c_eq :: v.
Proof.
  intros n p. rewrite is_prefix_spec. split; intros (v & E); exists v; rewrite E, <- app_assoc; reflexivity.
Qed.

(** pam_getenv returns the value put last and not deleted since. *)
Theorem getenv_returns_last_put : forall env puts n, put_history env puts -> name_ok n ->
  getenv env (Some n) = Ok (after puts n).
Proof.
  intros env puts n H HN. induction H as [env H|env nv rv env' puts H IH HC HP].
  - injection H as <-. cbn [after]. rewrite (getenv_stores _ [] n); [reflexivity|apply make_env_stores; reflexivity|exact HN].
  - destruct (putenv_is_a_map_update env false false nv (history_lived _ _ H) HC) as (rv1 & env1 & m & m' & E & HM & HM' & HE).
    rewrite E in HP. injection HP as -> ->. rewrite (HM' n HN). rewrite (HM n HN) in IH. injection IH as IH. f_equal. cbn [after].
    assert (HB : forall k, asks nv None -> m' k = m k -> m' n = m n -> m' n = (if streq nv n then None else if is_prefix (n ++ [c_eq]) nv then Some (skipn (S (length n)) nv) else after puts n)).
    { intros k HA _ EM. destruct (streq nv n) eqn:E1.
      - apply streq_eq in E1. subst nv. destruct HN as [N1 N2]. inversion HA; subst; [congruence|]. exfalso. apply N2. left. reflexivity.
      - destruct (is_prefix (n ++ [c_eq]) nv) eqn:E2; [|congruence]. apply is_prefix_join in E2. destruct E2 as (v & ->). destruct HN as [N1 N2].
        inversion HA as [| | X|w X].
        + destruct n; discriminate.
        + destruct n as [|c n]; [congruence|]. injection X as X0 X. exfalso. apply N2. left. congruence. }
    assert (OTHER : forall k, k <> n -> ~ In c_eq k -> m' n = m n -> (nv = k \/ exists v, nv = k ++ c_eq :: v) ->
      m' n = (if streq nv n then None else if is_prefix (n ++ [c_eq]) nv then Some (skipn (S (length n)) nv) else after puts n)).
    { intros k HK HKE EM HV. destruct (streq nv n) eqn:E1.
      - apply streq_eq in E1. subst nv. destruct HV as [->|(v & E2)]; [congruence|]. exfalso. apply (proj2 HN). rewrite E2. apply in_or_app. right. left. reflexivity.
      - destruct (is_prefix (n ++ [c_eq]) nv) eqn:E2; [|congruence]. apply is_prefix_join in E2. destruct E2 as (v & E2). exfalso. destruct HV as [E3|(w & E3)].
        + apply HKE. rewrite <- E3, E2. apply in_or_app. right. left. reflexivity.
        + rewrite E3 in E2. apply split_eq_unique in E2; [|exact HKE|exact (proj2 HN)]. destruct E2 as [E2 _]. congruence. }
    inversion HE as [x HA HM1|k v x HA HV HSB|k x HA HP1 HV HSB|k x HA HP1 HM1|k v x HNO]; subst.
    + apply (HB n HA); apply HM1.
    + inversion HA as [k' v' HK| | |]; subst. destruct (streq k n) eqn:EK.
      * apply streq_eq in EK. subst k. rewrite HV. destruct (streq (n ++ c_eq :: v) n) eqn:E1.
        { apply streq_eq in E1. exfalso. apply (proj2 HN). rewrite <- E1. apply in_or_app. right. left. reflexivity. }
        replace (is_prefix (n ++ [c_eq]) (n ++ c_eq :: v)) with true by (symmetry; apply is_prefix_join; eauto).
        rewrite skipn_app, skipn_all2 by lia. replace (S (length n) - length n)%nat with 1%nat by lia. reflexivity.
      * apply streq_neq in EK. apply (OTHER k EK (proj2 HK)); [apply HSB; congruence|right; eauto].
    + inversion HA as [|k' HK| |]; subst. destruct (streq k n) eqn:EK; [apply streq_eq in EK; subst; exact HV|]. pose proof EK as EK1. apply streq_neq in EK1.
      apply (OTHER k EK1 (proj2 HK)); [apply HSB; congruence|left; reflexivity].
    + inversion HA as [|k' HK| |]; subst. destruct (streq k n) eqn:EK; [apply streq_eq in EK; subst; rewrite HM1; exact HP1|]. pose proof EK as EK1. apply streq_neq in EK1.
      apply (OTHER k EK1 (proj2 HK)); [apply HM1|left; reflexivity].
    + discriminate.
Qed.

(** Environments of the examples. *)
Fixpoint put_all (puts : list cstr) : option environ :=
  match puts with
  | [] => snd (make_env false false)
  | p :: ps => match putenv false false (put_all ps) (Some p) with Ok (_, env) => env | _ => None end
  end.

Lemma put_all_history : forall puts, Forall is_cstr puts -> put_history (put_all puts) puts.
Proof.
  intros puts H. induction H as [|p ps HP _ IH]; [apply ph_start; reflexivity|].
  destruct (putenv_is_a_map_update (put_all ps) false false p (history_lived _ _ IH) HP) as (rv & env' & m & m' & E & _).
  cbn [put_all]. rewrite E. exact (ph_put _ _ _ _ _ IH HP E).
Qed.

Example last_put_example : exists env, put_history env [lit "B"; lit "A=3"; lit "B=x=y"; lit "A=1"] /\
  getenv env (Some (lit "A")) = Ok (Some (lit "3")) /\ getenv env (Some (lit "B")) = Ok None.
Proof.
  exists (put_all [lit "B"; lit "A=3"; lit "B=x=y"; lit "A=1"]). split; [|split; vm_compute; reflexivity].
  apply put_all_history. repeat constructor; vm_compute; intuition discriminate.
Qed.

(** pam_getenvlist: each variable exactly once; NULL only when memory is exhausted. *)
Theorem getenvlist_is_the_map : forall env, lived env -> exists l,
  (forall oom fails, getenvlist oom fails env = Ok (Some l) \/
     getenvlist oom fails env = Ok None /\ (oom = true \/ exists i, fails i = true)) /\
  NoDup l /\
  (forall s, In s l <-> exists n v, name_ok n /\ s = n ++ c_eq :: v /\ getenv env (Some n) = Ok (Some v)).
Proof.
  intros env HL. destruct (lived_stores env HL) as (e & al & -> & HS). exists (map join al). split; [|split].
  - intros oom fails. rewrite (getenvlist_stores e al oom fails HS). destruct oom; cbn [orb]; [right; auto|].
    destruct (existsb fails (seq 0 (length al))) eqn:E; [|left; reflexivity]. right. split; [reflexivity|]. right. apply existsb_exists in E. destruct E as (i & _ & E). eauto.
  - destruct HS as (_ & _ & _ & HF & HD). induction al as [|(n & v) al IH]; [constructor|]. cbn [map fst] in *.
    inversion HD as [|? ? D1 D2]; subst. inversion HF as [|? ? F1 F2]; subst. constructor; [|apply IH; auto].
    intros HI. apply in_map_iff in HI. destruct HI as ((k & w) & E & HI). unfold join in E. cbn [fst snd] in *.
    rewrite Forall_forall in F2. pose proof (F2 _ HI) as [_ FK]. apply split_eq_unique in E; [|exact FK|exact (proj2 F1)]. destruct E as [-> _].
    apply D1. apply (in_map fst) in HI. exact HI.
  - intros s. pose proof HS as (_ & _ & _ & HF & HD). rewrite Forall_forall in HF. split.
    + intros HI. apply in_map_iff in HI. destruct HI as ((n & v) & <- & HI). exists n, v. pose proof (HF _ HI) as HN. cbn [fst] in HN.
      split; [exact HN|]. split; [reflexivity|]. rewrite (getenv_stores e al n HS HN), (look_in al n v HD HI). reflexivity.
    + intros (n & v & HN & -> & E). rewrite (getenv_stores e al n HS HN) in E. injection E as E. apply look_some in E.
      apply (in_map join) in E. exact E.
Qed.

Example getenvlist_example : exists env, lived env /\ getenvlist false (fun _ => false) env = Ok (Some [lit "A=1"; lit "B=2"]).
Proof.
  exists (put_all [lit "B=2"; lit "A=1"]). split; [|vm_compute; reflexivity].
  eapply history_lived. apply put_all_history. repeat constructor; vm_compute; intuition discriminate.
Qed.

(** The storage: whatever allocations failed, the array has the recorded size, the used part ends in
    NULL and holds NAME=value strings with different names. *)
Theorem env_storage_invariant : forall env, lived env -> exists e, env = Some e /\
  length (elist e) = entries e /\ (1 <= requested e <= entries e)%nat /\
  nth_error (elist e) (requested e - 1) = Some None /\
  (forall i, (i < requested e - 1)%nat -> exists n v, name_ok n /\ nth_error (elist e) i = Some (Some (n ++ c_eq :: v))) /\
  (forall i j n v w, (i < requested e - 1)%nat -> (j < requested e - 1)%nat -> ~ In c_eq n ->
     nth_error (elist e) i = Some (Some (n ++ c_eq :: v)) -> nth_error (elist e) j = Some (Some (n ++ c_eq :: w)) -> i = j).
Proof.
  intros env HL. destruct (lived_stores env HL) as (e & al & -> & HS). exists e. split; [reflexivity|].
  destruct HS as ((rest & EL) & HLen & HReq & HF & HD). rewrite HReq.
  replace (S (length al) - 1)%nat with (length al) by lia. split; [exact HLen|]. rewrite Forall_forall in HF.
  assert (NE : forall i p, nth_error al i = Some p -> nth_error (elist e) i = Some (Some (join p))).
  { intros i p E. rewrite EL, nth_error_app1; [|rewrite map_length; apply nth_error_Some; congruence].
    rewrite (map_nth_error _ _ _ E). reflexivity. }
  split; [|split; [|split]].
  - split; [lia|]. rewrite <- HLen, EL, app_length, map_length. cbn [length]. lia.
  - rewrite EL, nth_error_app2 by (rewrite map_length; lia). rewrite map_length, Nat.sub_diag. reflexivity.
  - intros i Hi. destruct (nth_error al i) as [(n & v)|] eqn:E; [|apply nth_error_None in E; lia].
    exists n, v. split; [exact (HF _ (nth_error_In _ _ E))|exact (NE i (n, v) E)].
  - intros i j n v w Hi Hj HN E1 E2.
    destruct (nth_error al i) as [(a & b)|] eqn:A1; [|apply nth_error_None in A1; lia].
    destruct (nth_error al j) as [(c & d)|] eqn:A2; [|apply nth_error_None in A2; lia].
    rewrite (NE i _ A1) in E1. rewrite (NE j _ A2) in E2. injection E1 as E1. injection E2 as E2. unfold join in E1, E2. cbn [fst snd] in E1, E2.
    apply split_eq_unique in E1; [|exact (proj2 (HF _ (nth_error_In _ _ A1)))|exact HN].
    apply split_eq_unique in E2; [|exact (proj2 (HF _ (nth_error_In _ _ A2)))|exact HN].
    destruct E1 as [-> _], E2 as [-> _].
    apply (proj1 (NoDup_nth_error (map fst al)) HD); [rewrite map_length; exact Hi|].
    rewrite (map_nth_error fst _ _ A1), (map_nth_error fst _ _ A2). reflexivity.
Qed.

Example storage_example : forall oom1 oom2 env, make_env false false = (PAM_SUCCESS, env) -> exists rv env',
  putenv oom1 oom2 env (Some (lit "A=1")) = Ok (rv, env') /\ lived env'.
Proof.
  intros oom1 oom2 env E. destruct (putenv_is_a_map_update env oom1 oom2 (lit "A=1") (lived_start _ E)) as (rv & env' & m & m' & EP & _).
  { vm_compute; intuition discriminate. }
  exists rv, env'. split; [exact EP|]. eapply lived_put; [apply lived_start; exact E| |exact EP]. vm_compute; intuition discriminate.
Qed.

(** Reading never goes out of bounds, for any name. *)
Theorem getenv_never_undefined : forall env n, lived env -> exists r, getenv env n = Ok r.
Proof.
  intros env [n|] HL; [|eexists; reflexivity]. destruct (lived_stores env HL) as (e & al & -> & HS). exact (getenv_total e al n HS).
Qed.

Example never_undefined_example : getenv (snd (make_env false false)) (Some (lit "=")) = Ok None.
Proof. vm_compute. reflexivity. Qed.

Lemma asks_none_some : forall nv n v, asks nv None -> asks nv (Some (n, v)) -> False.
Proof.
  intros nv n v H1 H2. assert (H : exists k r, name_ok k /\ nv = k ++ r).
  { inversion H2 as [k w HK E|k HK E| |]; subst; [eauto|]. exists n, []. rewrite app_nil_r. auto. }
  destruct H as (k & r & [K1 K2] & ->). destruct k as [|c k]; [congruence|]. inversion H1 as [| |E|w E]. apply K2. left. congruence.
Qed.

(** Failure codes: a failed strdup is always reported as PAM_BUF_ERR, and without failed allocations
    the code is never PAM_BUF_ERR; NULL is PAM_PERM_DENIED; a handle without environment PAM_ABORT. *)
Theorem putenv_codes : forall env nv, lived env -> is_cstr nv ->
  (forall oom1 rv env', putenv oom1 true env (Some nv) = Ok (rv, env') ->
     (exists n v, asks nv (Some (n, Some v))) -> rv = 5) /\
  (forall rv env', putenv false false env (Some nv) = Ok (rv, env') -> rv = 0 \/ rv = 29) /\
  (forall oom1 oom2, putenv oom1 oom2 env None = Ok (6, env)) /\
  (forall oom1 oom2 n v, asks nv (Some (n, v)) -> putenv oom1 oom2 None (Some nv) = Ok (26, None)).
Proof.
  intros env nv HL HC. destruct (lived_stores env HL) as (e & al & -> & HS). split; [|split; [|split]].
  - intros oom1 rv env' HP (n & v & HA). destruct (request_cases nv HC) as [[E0 HA']|(k & En & E0 & HN & HR)].
    { exfalso. exact (asks_none_some _ _ _ HA' HA). }
    unfold putenv in HP. apply Nat.eqb_neq in E0. rewrite E0 in HP.
    assert (EC : char_at nv (len_to_eq nv) = Ok c_eq).
    { destruct HR as [(HA' & EV & _)|(w & _ & _ & EC)]; [|exact EC]. exfalso. inversion HA; subst. apply (proj2 HN). rewrite <- EV. apply in_or_app. right. left. reflexivity. }
    rewrite EC in HP. destruct (search_env e nv (len_to_eq nv)) as [item| |]; try discriminate. cbn [bind] in HP.
    change (negb (Ascii.eqb c_eq NUL)) with true in HP. cbv iota in HP.
    match type of HP with bind ?x _ = _ => destruct x as [[(i & e')|]| |]; cbn [bind] in HP; try discriminate end.
    + unfold remove_item in HP. destruct (set_slot (elist e') i None) as [l| |]; cbn [bind] in HP; try discriminate.
      match type of HP with context [if ?c then _ else _] => destruct c end; cbn [bind] in HP; [|discriminate]. injection HP as <- _. reflexivity.
    + injection HP as <- _. reflexivity.
  - intros rv env' HP. destruct (putenv_step e al nv false false HS HC) as (rv1 & e' & al' & E & _ & HE).
    rewrite E in HP. injection HP as <- _. inversion HE; subst; auto. discriminate.
  - reflexivity.
  - intros oom1 oom2 n v HA. unfold putenv. destruct (request_cases nv HC) as [[E0 HA']|(k & En & E0 & HN & HR)].
    + exfalso. exact (asks_none_some _ _ _ HA' HA).
    + apply Nat.eqb_neq in E0. rewrite E0. reflexivity.
Qed.

Example codes_example : putenv false true (snd (make_env false false)) (Some (lit "A=1")) = Ok (5, snd (make_env false false)) /\
  putenv false false (snd (make_env false false)) (Some (lit "A")) = Ok (29, snd (make_env false false)).
Proof. split; vm_compute; reflexivity. Qed.

(** A name that is not the name of any variable may nevertheless have a value: the search compares up
    to the length of the argument. *)
Theorem getenv_of_no_variable_refuted : exists env puts n v, put_history env puts /\
  ~ name_ok n /\ getenv env (Some n) = Ok (Some v) /\
  (forall p, In p puts -> asks p (Some (n, Some v)) -> False).
Proof.
  eexists _, [lit "A=B=C"], (lit "A=B"), (lit "C"). split.
  - eapply ph_put; [apply ph_start; reflexivity|vm_compute; intuition discriminate|vm_compute; reflexivity].
  - split; [intros [_ H]; apply H; vm_compute; auto|]. split; [vm_compute; reflexivity|].
    intros p _ HA. inversion HA as [? ? [_ H]| | |]; subst. apply H. vm_compute; auto.
Qed.

Print Assumptions putenv_is_a_map_update.
Print Assumptions getenv_returns_last_put.
Print Assumptions getenvlist_is_the_map.
Print Assumptions env_storage_invariant.
Print Assumptions getenv_never_undefined.
Print Assumptions putenv_codes.
Print Assumptions getenv_of_no_variable_refuted.
