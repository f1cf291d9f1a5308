(** C35: the age of passwords in pam_unix. *)
From Coq Require Import String Ascii List Arith NArith ZArith Lia Bool.
From Verif Require Import Base Num_Model Inline_Model Unixctl_Model Unix_Model.
Import ListNotations.
Local Open Scope Z_scope.

(** ** The documented meaning (shadow(5)), in unbounded numbers; negative fields are empty ones *)
Section Meaning.
Variables (today : Z) (s : spent).
Definition account_over : Prop := 0 <= sp_expire s <= today.
Definition change_forced : Prop := sp_lstchg s = 0.
(** Ageing applies: a known day of change, not in the future. *)
Definition ages : Prop := 0 < sp_lstchg s <= today.
Definition age : Z := today - sp_lstchg s.
Definition too_old : Prop := ages /\ 0 <= sp_max s <= age.
Definition inactive : Prop := too_old /\ 0 <= sp_inact s /\ sp_max s + sp_inact s <= age.
Definition too_young : Prop := ages /\ age < sp_min s.
Definition warns : Prop := ages /\ 0 <= sp_max s /\ 0 < sp_warn s /\ sp_max s - sp_warn s <= age.

(** The first that applies decides: the code and the days left until expiry (-1: nothing to say). *)
Inductive verdict : Z -> Z -> Prop :=
| VOver : account_over -> verdict 13 (-1)
| VForced : ~ account_over -> change_forced -> verdict 12 0
| VInactive : ~ account_over -> inactive -> verdict 27 (sp_max s + sp_inact s - age)
| VOld : ~ account_over -> too_old -> ~ inactive -> verdict 12 (-1)
| VYoungWarn : ~ account_over -> ~ change_forced -> ~ too_old -> too_young -> warns -> verdict 20 (sp_max s - age)
| VYoung : ~ account_over -> ~ change_forced -> ~ too_old -> too_young -> ~ warns -> verdict 20 (-1)
| VWarn : ~ account_over -> ~ change_forced -> ~ too_old -> ~ too_young -> warns -> verdict 0 (sp_max s - age)
| VGood : ~ account_over -> ~ change_forced -> ~ too_old -> ~ too_young -> ~ warns -> verdict 0 (-1).
End Meaning.

Definition is_long (z : Z) : Prop := LONG_MIN <= z <= LONG_MAX.
Definition long_fields (s : spent) : Prop :=
  is_long (sp_lstchg s) /\ is_long (sp_min s) /\ is_long (sp_max s) /\ is_long (sp_warn s) /\ is_long (sp_inact s) /\ is_long (sp_expire s).

Lemma lng_ok : forall z, is_long z -> lng z = Ok z.
Proof. intros z [A B]. unfold lng. rewrite (proj2 (Z.leb_le _ _) A), (proj2 (Z.leb_le _ _) B). reflexivity. Qed.

Lemma long_max : LONG_MAX = 9223372036854775807.
Proof. reflexivity. Qed.
Lemma long_min : LONG_MIN = -9223372036854775808.
Proof. reflexivity. Qed.

(** C35.  For every entry of the shadow file and every time no arithmetic overflows, and the code and the days are the
    documented ones. *)
Theorem aging_as_documented : forall now s, is_long now -> long_fields s ->
  exists v days, shadow_expiry now s = Ok (v, days) /\ verdict (Z.quot now 86400) s v days.
Proof.
  intros now s HN (H1 & H2 & H3 & H4 & H5 & H6). unfold shadow_expiry. cbv zeta.
  assert (HT : LONG_MIN <= 86400 * Z.quot now 86400 <= LONG_MAX).
  { unfold is_long in HN. rewrite long_min, long_max in *. pose proof (Z.quot_rem' now 86400) as Q. destruct (Z.le_gt_cases 0 now) as [P|P].
    - pose proof (Z.rem_bound_pos now 86400 P ltac:(lia)). lia.
    - pose proof (Z.rem_nonpos now 86400 ltac:(lia) ltac:(lia)). pose proof (Z.rem_bound_abs now 86400 ltac:(lia)). lia. }
  set (today := Z.quot now 86400) in *. clearbody today. unfold is_long in *. rewrite long_min, long_max in *.
  assert (U : forall v d, verdict today s v d -> exists v0 d0, Ok (v, d) = Ok (v0, d0) /\ verdict today s v0 d0) by (intros v d V; exists v, d; auto).
  destruct ((0 <=? sp_expire s) && (sp_expire s <=? today)) eqn:E1.
  { apply andb_true_iff in E1. rewrite !Z.leb_le in E1. apply U, VOver. unfold account_over. lia. }
  assert (NO : ~ account_over today s).
  { intros [A B]. rewrite (proj2 (Z.leb_le _ _) A), (proj2 (Z.leb_le _ _) B) in E1. discriminate. }
  destruct (Z.eqb_spec (sp_lstchg s) 0) as [L0|L0]; [apply U, VForced; [exact NO|exact L0]|].
  assert (NF : ~ change_forced s) by (unfold change_forced; lia).
  assert (NA : ~ ages today s -> exists v d, Ok (0, -1) = Ok (v, d) /\ verdict today s v d).
  { intros N. apply U, VGood; auto; unfold too_old, too_young, warns; tauto. }
  destruct (Z.ltb_spec (sp_lstchg s) 0) as [L1|L1]; [apply NA; unfold ages; lia|].
  destruct (Z.ltb_spec today (sp_lstchg s)) as [L2|L2]; [apply NA; unfold ages; lia|]. clear NA.
  assert (A : ages today s) by (unfold ages; lia).
  assert (PA : 0 <= today - sp_lstchg s <= LONG_MAX / 86400) by (rewrite long_max; change (9223372036854775807 / 86400) with 106751991167300; lia).
  rewrite long_max in PA. change (9223372036854775807 / 86400) with 106751991167300 in PA.
  rewrite lng_ok by (unfold is_long; rewrite long_min, long_max; lia). cbn [bind].
  assert (R : forall d, ~ too_old today s -> (warns today s -> d = sp_max s - age today s) -> (~ warns today s -> d = -1) -> (warns today s \/ ~ warns today s) ->
     exists v0 d0, (if (0 <? sp_min s) && (today - sp_lstchg s <? sp_min s) then Ok (20, d) else Ok (0, d)) = Ok (v0, d0) /\ verdict today s v0 d0).
  { intros d NT W1 W2 DW. destruct ((0 <? sp_min s) && (today - sp_lstchg s <? sp_min s)) eqn:EM.
    - apply andb_true_iff in EM. rewrite !Z.ltb_lt in EM. assert (Y : too_young today s) by (split; [exact A|unfold age; lia]).
      apply U. destruct DW as [W|W]; [rewrite (W1 W); apply VYoungWarn|rewrite (W2 W); apply VYoung]; assumption.
    - assert (Y : ~ too_young today s).
      { intros [_ Y]. unfold age in Y. rewrite (proj2 (Z.ltb_lt 0 (sp_min s))), (proj2 (Z.ltb_lt (today - sp_lstchg s) (sp_min s))) in EM by lia. discriminate. }
      apply U. destruct DW as [W|W]; [rewrite (W1 W); apply VWarn|rewrite (W2 W); apply VGood]; assumption. }
  destruct (Z.leb_spec 0 (sp_max s)) as [M|M].
  2:{ apply R; unfold too_old, warns; try lia; tauto || (right; lia). }
  assert (LATER : ~ inactive today s -> exists v0 d0,
     (if sp_max s <=? today - sp_lstchg s then Ok (12, -1)
      else if 0 <? sp_warn s then
          bind (if sp_max s <? sp_warn s then Ok (-1) else lng (sp_max s - sp_warn s)) (fun warn =>
          if warn <=? today - sp_lstchg s then bind (lng (sp_max s - (today - sp_lstchg s))) (fun d => if (0 <? sp_min s) && (today - sp_lstchg s <? sp_min s) then Ok (20, d) else Ok (0, d))
          else if (0 <? sp_min s) && (today - sp_lstchg s <? sp_min s) then Ok (20, -1) else Ok (0, -1))
      else if (0 <? sp_min s) && (today - sp_lstchg s <? sp_min s) then Ok (20, -1) else Ok (0, -1)) = Ok (v0, d0) /\ verdict today s v0 d0).
  { intros NI. destruct (Z.leb_spec (sp_max s) (today - sp_lstchg s)) as [MO|MO].
    { apply U, VOld; auto. split; [exact A|unfold age; lia]. }
    assert (NT : ~ too_old today s) by (unfold too_old, age; lia).
    destruct (Z.ltb_spec 0 (sp_warn s)) as [W|W].
    2:{ apply R; [exact NT|unfold warns; lia|reflexivity|right; unfold warns; lia]. }
    assert (WB : (if sp_max s <? sp_warn s then Ok (-1) else lng (sp_max s - sp_warn s)) = Ok (if sp_max s <? sp_warn s then -1 else sp_max s - sp_warn s)).
    { destruct (Z.ltb_spec (sp_max s) (sp_warn s)); [reflexivity|]. apply lng_ok. unfold is_long. rewrite long_min, long_max. lia. }
    rewrite WB. cbn [bind]. destruct (Z.leb_spec (if sp_max s <? sp_warn s then -1 else sp_max s - sp_warn s) (today - sp_lstchg s)) as [K|K].
    - rewrite lng_ok by (unfold is_long; rewrite long_min, long_max; lia). cbn [bind].
      assert (WW : warns today s) by (split; [exact A|]; unfold age; destruct (Z.ltb_spec (sp_max s) (sp_warn s)); lia).
      apply R; [exact NT|unfold age; lia|tauto|auto].
    - assert (WW : ~ warns today s) by (intros (_ & _ & _ & Q); unfold age in Q; destruct (Z.ltb_spec (sp_max s) (sp_warn s)); lia).
      apply R; [exact NT|tauto|reflexivity|auto]. }
  destruct (Z.leb_spec 0 (sp_inact s)) as [I|I].
  2:{ apply LATER. intros (_ & Q & _). lia. }
  rewrite lng_ok by (unfold is_long; rewrite long_min, long_max; lia). cbn [bind].
  assert (IB : (if sp_max s <? 9223372036854775807 - sp_inact s then lng (sp_max s + sp_inact s) else Ok 9223372036854775807) = Ok (Z.min (sp_max s + sp_inact s) 9223372036854775807)).
  { destruct (Z.ltb_spec (sp_max s) (9223372036854775807 - sp_inact s)); [rewrite lng_ok by (unfold is_long; rewrite long_min, long_max; lia)|]; f_equal; lia. }
  rewrite IB. cbn [bind]. destruct (Z.leb_spec (Z.min (sp_max s + sp_inact s) 9223372036854775807) (today - sp_lstchg s)) as [K|K].
  - rewrite lng_ok by (unfold is_long; rewrite long_min, long_max; lia). cbn [bind].
    replace (Z.min (sp_max s + sp_inact s) 9223372036854775807) with (sp_max s + sp_inact s) by lia. apply U. apply VInactive; [exact NO|]. unfold inactive, too_old, age. repeat split; auto; try apply A; lia.
  - apply LATER. intros (_ & _ & Q). unfold age in Q. lia.
Qed.

(** The verdict is a function. *)
Theorem verdict_unique : forall today s v1 d1 v2 d2, verdict today s v1 d1 -> verdict today s v2 d2 -> v1 = v2 /\ d1 = d2.
Proof.
  intros today s v1 d1 v2 d2 H1 H2.
  assert (F1 : change_forced s -> ~ too_old today s /\ ~ inactive today s) by (unfold change_forced, inactive, too_old, ages; lia).
  assert (F2 : inactive today s -> too_old today s) by (unfold inactive; tauto).
  destruct H1; inversion H2; subst; try (exfalso; tauto); auto.
Qed.

(** ** pam_acct_mgmt *)
Section Account.
Variable crypt md5_good md5_broken : cstr -> cstr -> option cstr.
Variable fuel : nat.
Notation verify_user := (verify_user crypt md5_good md5_broken fuel).
Notation acct_mgmt := (acct_mgmt crypt md5_good md5_broken fuel).

(** The password field says that the password is in the shadow file: "x", or "##" and the user's name. *)
Definition shadow_mark (pw : pwent) : bool :=
  if list_eq_dec ascii_dec (pw_passwd pw) (lit "x") then true
  else if list_eq_dec ascii_dec (pw_passwd pw) (lit "##" ++ pw_name pw) then true else false.
Lemma is_shadowed_mark : forall pw, is_shadowed pw = shadow_mark pw.
Proof.
  intros pw. unfold is_shadowed, shadow_mark. destruct (list_eq_dec ascii_dec (pw_passwd pw) (lit "x")) as [E|E]; [rewrite E; reflexivity|].
  replace (streq (pw_passwd pw) (lit "x")) with false by (symmetry; apply not_true_iff_false; rewrite streq_eq; exact E). cbn [orb].
  destruct (list_eq_dec ascii_dec (pw_passwd pw) (lit "##" ++ pw_name pw)) as [Q|Q]; [rewrite Q; cbn; apply streq_refl|].
  destruct (pw_passwd pw) as [|a [|b r]]; try reflexivity. destruct (Ascii.eqb_spec a "#"%char) as [->|]; [|reflexivity]. destruct (Ascii.eqb_spec b "#"%char) as [->|]; [|reflexivity]. cbn [andb].
  apply not_true_iff_false. rewrite streq_eq. intros E2. apply Q. rewrite E2. reflexivity.
Qed.

(** The shadow entry the module or, if it may not look, its helper finds for the user. *)
Definition finds_shadow (e : uenv) (d : db) (name : cstr) (s : spent) : Prop :=
  exists pw h, getpw d name = Some pw /\ shadow_mark pw = true /\ sp_pwdp s = Some h /\
  ((e_try e = true /\ getsp d (e_priv e) name = Some s /\ ~ (name = lit "root" /\ h = lit "!*")) \/
   ((e_try e = false \/ getsp d (e_priv e) name = None) /\ exists k b p priv, e_how e 0%nat = RRuns k b p /\ c_tty k = false /\ helper_priv k name = Some priv /\ getsp d priv name = Some s)).

Lemma account_info_found : forall e d name s, finds_shadow e d name s -> forall ctrl days,
  verify_user e d ctrl name days = bind (shadow_expiry (e_now e) s) (fun '(rv, dl) => if (rv =? 9) && on BROKEN_SHADOW ctrl then Ok (0, dl) else Ok (rv, dl)) \/
  verify_user e d ctrl name days = shadow_expiry (e_now e) s.
Proof.
  intros e d name s (pw & h & G & SH & SP & D) ctrl days. rewrite <- is_shadowed_mark in SH. unfold Unix_Model.verify_user, account_info. rewrite G, SH. destruct D as [(T & GS & NR)|(DD & k & b & p & priv & EH & TT & HP & GS)].
  - right. rewrite T, GS, SP. destruct (streq name (lit "root") && streq h (lit "!*")) eqn:ER.
    + exfalso. apply NR. apply andb_true_iff in ER. rewrite !streq_eq in ER. exact ER.
    + reflexivity.
  - left. assert (EV : run_verify crypt md5_good md5_broken fuel (e_how e 0%nat) d (e_now e) name = bind (shadow_expiry (e_now e) s) (fun '(v, dl) => Ok (v, Some dl))).
    { rewrite EH. cbn [run_verify]. unfold chkpwd. rewrite TT, HP. change (streq (lit "chkexpiry") (lit "chkexpiry")) with true. cbv iota. unfold check_expiry, account_info_helper. rewrite G, SH, GS, SP.
      cbn [Z.eqb]. destruct (shadow_expiry (e_now e) s) as [[v dl]| |]; reflexivity. }
    assert (GO : verify_user e d ctrl name days = bind (run_verify crypt md5_good md5_broken fuel (e_how e 0%nat) d (e_now e) name) (fun '(rv, out) =>
      let days := match out with Some n => n | None => days end in if (rv =? 9) && on BROKEN_SHADOW ctrl then Ok (0, days) else Ok (rv, days))).
    { unfold Unix_Model.verify_user, account_info. rewrite G, SH. destruct DD as [T|T]; [rewrite T; reflexivity|]. destruct (e_try e); [rewrite T|]; reflexivity. }
    unfold Unix_Model.verify_user, account_info in GO. rewrite G, SH in GO. rewrite GO, EV. destruct (shadow_expiry (e_now e) s) as [[v dl]| |]; reflexivity.
Qed.

(** The module decides on the entry, whether it can read the shadow file or the helper does it. *)
Theorem user_verdict : forall e d ctrl name days s, finds_shadow e d name s -> is_long (e_now e) -> long_fields s ->
  exists v dl, verify_user e d ctrl name days = Ok (v, dl) /\ verdict (Z.quot (e_now e) 86400) s v dl.
Proof.
  intros e d ctrl name days s F HN HL. destruct (aging_as_documented _ _ HN HL) as (v & dl & E & V). exists v, dl. split; [|exact V].
  destruct (account_info_found _ _ _ _ F ctrl days) as [-> | ->]; rewrite E; [|reflexivity]. cbn [bind].
  replace (v =? 9) with false; [reflexivity|]. symmetry. apply Z.eqb_neq. inversion V; lia.
Qed.

(** The decision for the login. *)
Definition auth_succeeded (a : option Z) : Prop := a = Some 0.
Theorem account_decision : forall e d ctrl name a s, finds_shadow e d name s -> is_long (e_now e) -> long_fields s ->
  let today := Z.quot (e_now e) 86400 in
  exists rv m, acct_mgmt e d ctrl (Some name) a = Ok (rv, m) /\
   (rv = 0 <-> ~ account_over today s /\ ((~ change_forced s /\ ~ too_old today s) \/ (on NO_PASS_EXPIRY ctrl = true /\ ~ auth_succeeded a))) /\
   (rv = 13 <-> account_over today s) /\
   (rv = 12 <-> ~ account_over today s /\ (change_forced s \/ too_old today s /\ ~ inactive today s) /\ (on NO_PASS_EXPIRY ctrl = false \/ auth_succeeded a)) /\
   (rv = 27 <-> ~ account_over today s /\ inactive today s /\ (on NO_PASS_EXPIRY ctrl = false \/ auth_succeeded a)) /\
   (on QUIET_ ctrl = true -> m = None).
Proof.
  intros e d ctrl name a s F HN HL today. destruct (user_verdict e d ctrl name (-1) s F HN HL) as (v & dl & E & V). fold today in V. unfold Unix_Model.acct_mgmt. rewrite E. cbn [bind].
  assert (F1 : change_forced s -> ~ too_old today s /\ ~ inactive today s) by (unfold change_forced, inactive, too_old, ages; lia).
  assert (F2 : inactive today s -> too_old today s) by (unfold inactive; tauto).
  set (authok := match a with Some v0 => v0 =? 0 | None => false end).
  assert (AO : authok = true <-> auth_succeeded a).
  { subst authok. unfold auth_succeeded. destruct a as [z|]; [|split; discriminate]. rewrite Z.eqb_eq. split; congruence. }
  assert (AN : authok = false <-> ~ auth_succeeded a) by (rewrite <- AO; destruct authok; split; congruence).
  assert (QT : forall x : remark, on QUIET_ ctrl = true -> (if off QUIET_ ctrl then Some x else None) = None) by (intros x Q; unfold off; rewrite Q; reflexivity).
  destruct (on NO_PASS_EXPIRY ctrl) eqn:NP; destruct authok eqn:EA; cbn [andb negb];
  inversion V; subst v dl; cbn [Z.eqb Pos.eqb orb];
  (eexists; eexists; split; [reflexivity|]);
  (repeat match goal with |- _ /\ _ => split | |- _ <-> _ => split end);
  intros; try discriminate; try (apply QT; assumption); try (destruct (0 <=? _); [apply QT; assumption|reflexivity]); 
  try tauto; exfalso; intuition discriminate.
Qed.

(** Without an entry: a user who does not exist is unknown; one without shadow password passes; one whose entry neither
    the module nor the helper finds does not pass, unless broken_shadow is given. *)
Theorem account_without_entry : forall e d ctrl name a rv m, acct_mgmt e d ctrl (Some name) a = Ok (rv, m) ->
  (getpw d name = None -> rv = 10) /\
  (forall pw, getpw d name = Some pw -> shadow_mark pw = false -> rv = 0 /\ m = None) /\
  (forall pw, getpw d name = Some pw -> shadow_mark pw = true -> (forall b, getsp d b name = None) -> on BROKEN_SHADOW ctrl = false -> rv = 7 \/ rv = 9).
Proof.
  intros e d ctrl name a rv m H. unfold Unix_Model.acct_mgmt in H. unfold Unix_Model.verify_user, account_info in H. split; [|split].
  - intros G. rewrite G in H. cbn in H. rewrite andb_false_r in H. cbn in H. congruence.
  - intros pw G NS. rewrite <- is_shadowed_mark in NS. rewrite G, NS in H. cbn in H. rewrite andb_false_r in H. cbn in H. injection H as <- <-. auto.
  - intros pw G SH NG BS. rewrite <- is_shadowed_mark in SH. rewrite G, SH, NG in H.
    assert (H' : bind (bind (run_verify crypt md5_good md5_broken fuel (e_how e 0%nat) d (e_now e) name) (fun '(rv, out) =>
        if (rv =? 9) && on BROKEN_SHADOW ctrl then Ok (0, match out with Some n => n | None => -1 end) else Ok (rv, match out with Some n => n | None => -1 end)))
       (fun '(rv0, days) =>
         let rv1 := if on NO_PASS_EXPIRY ctrl && negb match a with Some v => v =? 0 | None => false end && ((rv0 =? 12) || (rv0 =? 27)) then 0 else rv0 in
         if rv1 =? 13 then Ok (rv1, if off QUIET_ ctrl then Some RAcctExpired else None)
         else if rv1 =? 12 then Ok (rv1, if off QUIET_ ctrl then Some (RChangeNow (days =? 0)) else None)
         else if rv1 =? 27 then Ok (rv1, if off QUIET_ ctrl then Some RPwExpired else None)
         else if (rv1 =? 20) || (rv1 =? 0) then Ok (0, if 0 <=? days then if off QUIET_ ctrl then Some (RWarn days) else None else None)
         else Ok (rv1, None)) = Ok (rv, m)) by (destruct (e_try e); exact H). clear H.
    assert (R : exists v o, run_verify crypt md5_good md5_broken fuel (e_how e 0%nat) d (e_now e) name = Ok (v, o) /\ (v = 7 \/ v = 9)).
    { destruct (e_how e 0%nat) as [| | |k b p]; cbn [run_verify]; try (eexists; eexists; split; [reflexivity|]; auto; fail). unfold chkpwd.
      destruct (c_tty k); [eexists; eexists; split; [reflexivity|auto]|]. destruct (helper_priv k name) as [priv|]; [|eexists; eexists; split; [reflexivity|auto]].
      change (streq (lit "chkexpiry") (lit "chkexpiry")) with true. cbv iota. unfold check_expiry, account_info_helper. rewrite G, SH, NG. eexists; eexists; split; [reflexivity|auto]. }
    destruct R as (v & o & RR & V). rewrite RR in H'. cbn [bind] in H'. rewrite BS, andb_false_r in H'. cbn [bind] in H'. destruct V as [-> | ->]; cbn [Z.eqb Pos.eqb orb] in H'; rewrite andb_false_r in H'; cbn [Z.eqb Pos.eqb orb] in H'; injection H' as <- <-; auto.
Qed.

(** What the user is told: that the password will expire exactly when the warning period has begun; with no_pass_expiry
    also the days left of a password that is already too old. *)
Theorem account_warning : forall e d ctrl name a s, finds_shadow e d name s -> is_long (e_now e) -> long_fields s -> on QUIET_ ctrl = false ->
  let today := Z.quot (e_now e) 86400 in
  forall rv m n, acct_mgmt e d ctrl (Some name) a = Ok (rv, m) ->
  (m = Some (RWarn n) <-> rv = 0 /\ ~ change_forced s /\ ~ too_old today s /\ warns today s /\ n = sp_max s - age today s \/
                          rv = 0 /\ change_forced s /\ n = 0 \/
                          rv = 0 /\ inactive today s /\ n = sp_max s + sp_inact s - age today s /\ n = 0).
Proof.
  intros e d ctrl name a s F HN HL HQ today rv m n H. destruct (user_verdict e d ctrl name (-1) s F HN HL) as (v & dl & E & V). fold today in V. unfold Unix_Model.acct_mgmt in H. rewrite E in H. cbn [bind] in H.
  unfold off in H. rewrite HQ in H. cbn [negb] in H.
  assert (F1 : change_forced s -> ~ too_old today s /\ ~ inactive today s) by (unfold change_forced, inactive, too_old, ages; lia).
  assert (F2 : inactive today s -> too_old today s) by (unfold inactive; tauto).
  assert (F3 : inactive today s -> sp_max s + sp_inact s - age today s <= 0) by (intros (_ & _ & Q); lia).
  assert (F4 : ~ too_old today s -> warns today s -> 0 <= sp_max s - age today s) by (intros N (A & B & C & D); destruct (Z.le_gt_cases (sp_max s) (age today s)); [exfalso; apply N; split; [exact A|lia]|lia]).
  set (c := on NO_PASS_EXPIRY ctrl && negb match a with Some v0 => v0 =? 0 | None => false end) in *. clearbody c.
  destruct c; inversion V; subst v dl; cbn [Z.eqb Pos.eqb orb andb] in H;
  repeat match type of H with context [if 0 <=? ?x then _ else _] => destruct (Z.leb_spec 0 x) end;
  injection H as <- <-; (split; [intros Q; try discriminate; injection Q as <-|intros Q]); intuition (try lia; try congruence).
Qed.
End Account.

(** ** Examples: day 20000 is 2024-10-04 *)
Definition entry (h : string) (l mi ma w i x : Z) : spent := mkSp (Some (lit h)) l mi ma w i x.
Definition noon (day : Z) : Z := day * 86400 + 43200.
Example warned : shadow_expiry (noon 20000) (entry "h" 19915 1 90 7 30 (-1)) = Ok (0, 5) /\ is_long (noon 20000) /\ long_fields (entry "h" 19915 1 90 7 30 (-1)).
Proof. split; [vm_compute; reflexivity|]. unfold long_fields, is_long. cbn [entry sp_lstchg sp_min sp_max sp_warn sp_inact sp_expire]. rewrite long_min, long_max. unfold noon. lia. Qed.
Example overdue : shadow_expiry (noon 20000) (entry "h" 19900 1 90 7 30 (-1)) = Ok (12, -1) /\ shadow_expiry (noon 20000) (entry "h" 19880 1 90 7 30 (-1)) = Ok (27, 0) /\
  shadow_expiry (noon 20000) (entry "h" 19870 1 90 7 30 20000) = Ok (13, -1) /\ shadow_expiry (noon 20000) (entry "h" 19999 5 90 7 30 20001) = Ok (20, -1) /\
  shadow_expiry (noon 20000) (entry "h" 19999 5 LONG_MAX LONG_MAX LONG_MAX LONG_MAX) = Ok (20, LONG_MAX - 1).
Proof. repeat split; vm_compute; reflexivity. Qed.

Definition nohash (a b : cstr) : option cstr := None.
Definition joe_db (s : spent) : db := mkDb (fun n => if streq n (lit "joe") then Some (mkPw (lit "joe") (lit "x")) else None)
  (fun priv n => if priv && streq n (lit "joe") then Some s else None).
Definition root_helper : running := RRuns (mkChk false true None true true true) [] [].
Definition by_helper : uenv := mkE false false (noon 20000) (fun _ => root_helper) (fun _ => true).
Definition by_itself : uenv := mkE true true (noon 20000) (fun _ => RNone) (fun _ => true).
Example joe_found : forall s h, sp_pwdp s = Some h -> finds_shadow by_helper (joe_db s) (lit "joe") s /\ finds_shadow by_itself (joe_db s) (lit "joe") s.
Proof.
  intros s h E. split.
  - eexists; exists h. split; [reflexivity|]. split; [reflexivity|]. split; [exact E|]. right. split; [left; reflexivity|]. do 4 eexists. repeat split.
  - eexists; exists h. split; [reflexivity|]. split; [reflexivity|]. split; [exact E|]. left. split; [reflexivity|]. split; [reflexivity|]. intros [Q _]. discriminate.
Qed.
Example joe_account :
  acct_mgmt nohash nohash nohash 5 by_helper (joe_db (entry "h" 19915 1 90 7 30 (-1))) 0%N (Some (lit "joe")) (Some 0) = Ok (0, Some (RWarn 5)) /\
  acct_mgmt nohash nohash nohash 5 by_itself (joe_db (entry "h" 19900 1 90 7 30 (-1))) 0%N (Some (lit "joe")) (Some 0) = Ok (12, Some (RChangeNow false)) /\
  acct_mgmt nohash nohash nohash 5 by_helper (joe_db (entry "h" 0 1 90 7 30 (-1))) 0%N (Some (lit "joe")) (Some 0) = Ok (12, Some (RChangeNow true)) /\
  acct_mgmt nohash nohash nohash 5 by_helper (joe_db (entry "h" 19900 1 90 7 30 (-1))) (set NO_PASS_EXPIRY 0) (Some (lit "joe")) None = Ok (0, None) /\
  acct_mgmt nohash nohash nohash 5 (mkE true false 0 (fun _ => RNone) (fun _ => true)) (joe_db (entry "h" 19900 1 90 7 30 (-1))) 0%N (Some (lit "joe")) None = Ok (7, None).
Proof. split; [|split; [|split; [|split]]]; vm_compute; reflexivity. Qed.

Print Assumptions aging_as_documented.
Print Assumptions verdict_unique.
Print Assumptions user_verdict.
Print Assumptions account_decision.
Print Assumptions account_without_entry.
Print Assumptions account_warning.
