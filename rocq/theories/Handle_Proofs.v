(** Proofs about whole handles: two walks over a stack with related modules, frames of the calls. *)
From Coq Require Import String Ascii List Arith ZArith QArith Lia Bool.
From Verif Require Import Base Dispatch_Model Delay_Model Item_Model Conf_Model Handle_Model Item_Props.
Import ListNotations.
Local Open Scope Z_scope.

(** ** Walks over a stack with related modules *)
Section Sim.
Variables W1 W2 : Type.
Variable call1 : handler -> Z -> W1 -> W1 * Z.
Variable call2 : handler -> Z -> W2 -> W2 * Z.
Variable Rel : W1 -> W2 -> Prop.
Hypothesis HC : forall h flags w1 w2, Rel w1 w2 ->
  snd (call1 h flags w1) = snd (call2 h flags w2) /\ Rel (fst (call1 h flags w1)) (fst (call2 h flags w2)).

Definition wrel (s1 : wst W1) (s2 : wst W2) : Prop :=
  Rel (ww s1) (ww s2) /\ cache s1 = cache s2 /\ grant s1 = grant s2 /\ trace s1 = trace s2.
Definition orel (o1 : aout W1) (o2 : aout W2) : Prop :=
  match o1, o2 with
  | AFin z1 s1, AFin z2 s2 => z1 = z2 /\ wrel s1 s2
  | AInc f1 s1, AInc f2 s2 => f1 = f2 /\ wrel s1 s2
  | AUB, AUB => True
  | AFuel, AFuel => True
  | _, _ => False
  end.
Definition srel (o1 : sres W1) (o2 : sres W2) : Prop :=
  match o1, o2 with
  | StNext t1 d1 i1 st1 sb1 s1, StNext t2 d2 i2 st2 sb2 s2 => t1 = t2 /\ d1 = d2 /\ i1 = i2 /\ st1 = st2 /\ sb1 = sb2 /\ wrel s1 s2
  | StOut o1, StOut o2 => orel o1 o2
  | _, _ => False
  end.

Lemma perform_sim : forall uc lvl depth t i st subs retval cached action s1 s2, wrel s1 s2 ->
  srel (perform uc lvl depth t i st subs retval cached action s1) (perform uc lvl depth t i st subs retval cached action s2).
Proof.
  intros uc lvl depth t i st subs retval cached action s1 s2 H. pose proof H as (R & C & G & T).
  assert (GR : wrel (grant_at depth s1) (grant_at depth s2)) by (unfold wrel, grant_at; cbn; repeat split; congruence).
  unfold perform.
  destruct (action =? -5). { destruct (nth_error subs lvl) as [[[i' st']|]|]; cbn; auto 10. }
  destruct ((action =? -1) || (action =? -2)).
  { destruct (ok_verdict i st retval cached) as [i' st']. destruct (imp_eqb i' IPos && (retval =? 0)); destruct (imp_eqb i' IPos && (action =? -2)); try destruct (skip_rest lvl t (S depth)); cbn; auto 10. }
  destruct ((action =? -3) || (action =? -4)).
  { destruct (bad_verdict i st retval) as [i' st']. destruct (action =? -4); [destruct (skip_rest lvl t (S depth))|]; cbn; auto 10. }
  destruct (action =? 0); [cbn; auto 10|]. destruct (0 <? action); [|cbn; auto 10].
  destruct (do_jump lvl false action t (S depth)) as [[t' d'] r].
  destruct uc; try destruct (ok_verdict i st retval cached) as [i' st']; try destruct (imp_eqb i IUndef && (retval =? 0)); destruct (r =? 0); cbn; auto 10.
Qed.
Lemma step_sim : forall flags uc skip prev depth h t i st subs s1 s2, wrel s1 s2 ->
  srel (step call1 flags uc skip prev depth h t i st subs s1) (step call2 flags uc skip prev depth h t i st subs s2).
Proof.
  intros flags uc skip prev depth h t i st subs s1 s2 H. pose proof H as (R & C & G & T). unfold step. destruct (depth <? skip)%nat; [cbn; auto 10|].
  destruct (if (prev <? h_level h)%nat then upd subs (h_level h) (Some (i, st)) else Some subs) as [sb|]; [|exact I].
  assert (A : match attempt call1 flags depth h s1, attempt call2 flags depth h s2 with
              | None, None => True | Some (r1, x1), Some (r2, x2) => r1 = r2 /\ wrel x1 x2 | _, _ => False end).
  { unfold attempt. pose proof (HC h flags _ _ R) as (E & R').
    destruct (h_type h); try exact I; try (split; [reflexivity|exact H]); (destruct (h_func h) as [f|]; [|split; [reflexivity|exact H]]);
    destruct (call1 h flags (ww s1)) as [w1 r1], (call2 h flags (ww s2)) as [w2 r2]; cbn in *; subst r2; (split; [reflexivity|]); unfold wrel; cbn; repeat split; auto; congruence. }
  destruct (attempt call1 flags depth h s1) as [[r1 x1]|], (attempt call2 flags depth h s2) as [[r2 x2]|]; try contradiction; [|cbn; auto 10].
  destruct A as [-> A]. destruct (r2 =? 31); [cbn; auto|].
  assert (F : match freeze uc h r2 x1, freeze uc h r2 x2 with
              | Ok (c1, y1), Ok (c2, y2) => c1 = c2 /\ wrel y1 y2 | UB, UB => True | OutOfFuel, OutOfFuel => True | _, _ => False end).
  { destruct A as (R2 & C2 & G2 & T2). unfold freeze. rewrite C2. destruct uc.
    - destruct (upd (cache x2) (h_cell h) r2); [|exact I]. split; [reflexivity|]. unfold wrel; cbn; auto.
    - destruct (nth_error (cache x2) (h_cellp h)) as [c|]; [|exact I]. destruct (c =? -1); (split; [reflexivity|]); unfold wrel; auto.
    - destruct (nth_error (cache x2) (h_cellp h)) as [c|]; [|exact I]. destruct (c =? -1); (split; [reflexivity|]); unfold wrel; auto. }
  destruct (freeze uc h r2 x1) as [[c1 y1]| |], (freeze uc h r2 x2) as [[c2 y2]| |]; try contradiction; try exact I.
  destruct F as [-> F]. destruct (select h r2 c2) as [[r a]| |]; try exact I. apply perform_sim. exact F.
Qed.
Lemma aux_loop_sim : forall fuel flags uc skip prev depth l i st subs s1 s2, wrel s1 s2 ->
  orel (aux_loop call1 fuel flags uc skip prev depth l i st subs s1) (aux_loop call2 fuel flags uc skip prev depth l i st subs s2).
Proof.
  induction fuel as [|fuel IH]; intros flags uc skip prev depth l i st subs s1 s2 H; [exact I|]. cbn [aux_loop]. destruct l as [|h t]; [split; [reflexivity|exact H]|].
  pose proof (step_sim flags uc skip prev depth h t i st subs s1 s2 H) as S.
  destruct (step call1 flags uc skip prev depth h t i st subs s1), (step call2 flags uc skip prev depth h t i st subs s2); cbn in S; try contradiction; [|exact S].
  destruct S as (-> & -> & -> & -> & -> & S). apply IH. exact S.
Qed.

Definition prel (p1 : dpam W1) (p2 : dpam W2) : Prop :=
  dp_from_module p1 = dp_from_module p2 /\ dp_conf p1 = dp_conf p2 /\ dp_other p1 = dp_other p2 /\ dp_fchoice p1 = dp_fchoice p2 /\
  dp_former p1 = dp_former p2 /\ wrel (dp_st p1) (dp_st p2).
Definition rrel {A} (r1 : res (A * dpam W1)) (r2 : res (A * dpam W2)) : Prop :=
  match r1, r2 with
  | Ok (z1, p1), Ok (z2, p2) => z1 = z2 /\ prel p1 p2
  | UB, UB => True | OutOfFuel, OutOfFuel => True | _, _ => False
  end.
Lemma dispatch_sim : forall init_rv oom flags choice p1 p2, prel p1 p2 ->
  rrel (dispatch call1 init_rv oom flags choice p1) (dispatch call2 init_rv oom flags choice p2).
Proof.
  intros init_rv oom flags choice p1 p2 H. pose proof H as (E1 & E2 & E3 & E4 & E5 & S). pose proof S as (R & C & G & T).
  unfold dispatch, stack_for. rewrite E1, E2, E3, E4, E5. destruct (dp_from_module p2); [split; [reflexivity|exact H]|].
  destruct (negb (init_rv =? 0)); [split; [reflexivity|exact H]|].
  destruct (match pick (dp_conf p2) choice with Some [] => pick (dp_other p2) choice | Some l => Some l | None => None end) as [h|] eqn:EH.
  2:{ split; [reflexivity|exact H]. }
  destruct (negb (dp_fchoice p2 =? 0) && negb (dp_fchoice p2 =? choice)); [split; [reflexivity|exact H]|].
  set (resumed := negb (dp_fchoice p2 =? 0)).
  assert (HS : wrel (if resumed then dp_st p1 else mkW (ww (dp_st p1)) (cache (dp_st p1)) [] []) (if resumed then dp_st p2 else mkW (ww (dp_st p2)) (cache (dp_st p2)) [] [])).
  { destruct resumed; [exact S|]. unfold wrel; cbn; auto. }
  match goal with |- context [dispatch_aux call1 ?a ?b ?c ?d ?e ?s1] => match goal with |- context [dispatch_aux call2 a b c d e ?s2] =>
    assert (D : orel (dispatch_aux call1 a b c d e s1) (dispatch_aux call2 a b c d e s2));
    [ unfold dispatch_aux; destruct d as [|h0 t0]; [split; [reflexivity|exact HS]|]; destruct e; [apply aux_loop_sim; exact HS|]; destruct a; [split; [reflexivity|exact HS]|apply aux_loop_sim; exact HS]
    | destruct (dispatch_aux call1 a b c d e s1), (dispatch_aux call2 a b c d e s2); cbn in D; try contradiction; try exact I; destruct D as [-> D] ] end end.
  - split; [reflexivity|]. unfold prel; cbn. auto 10.
  - split; [reflexivity|]. unfold prel; cbn. auto 10.
Qed.
Lemma dispatch_audited_sim : forall e init_rv oom flags choice p1 p2, prel p1 p2 ->
  rrel (dispatch_audited call1 e init_rv oom flags choice p1) (dispatch_audited call2 e init_rv oom flags choice p2).
Proof.
  intros e init_rv oom flags choice p1 p2 H. unfold dispatch_audited. pose proof (dispatch_sim init_rv oom flags choice p1 p2 H) as D.
  destruct (dispatch call1 init_rv oom flags choice p1) as [[z1 q1]| |], (dispatch call2 init_rv oom flags choice p2) as [[z2 q2]| |]; cbn in D; try contradiction; try exact I.
  destruct D as [-> D]. pose proof D as (_ & _ & _ & _ & _ & _ & _ & G & _). rewrite G. destruct (negb (choice =? 6) || negb (Z.land flags 8192 =? 0) || negb (z2 =? 0)); split; auto.
Qed.
End Sim.

(** An invariant of the modules is one of a walk. *)
Lemma dispatch_audited_inv : forall (W : Type) (call : handler -> Z -> W -> W * Z) (Inv : W -> Prop),
  (forall h flags w, Inv w -> Inv (fst (call h flags w))) ->
  forall e init_rv oom flags choice p r p', Inv (ww (dp_st p)) -> dispatch_audited call e init_rv oom flags choice p = Ok (r, p') -> Inv (ww (dp_st p')).
Proof.
  intros W call Inv HI e init_rv oom flags choice p r p' H E.
  pose proof (dispatch_audited_sim W W call call (fun a b => a = b /\ Inv a)) as S.
  assert (HCC : forall h flags w1 w2, w1 = w2 /\ Inv w1 -> snd (call h flags w1) = snd (call h flags w2) /\ fst (call h flags w1) = fst (call h flags w2) /\ Inv (fst (call h flags w1))).
  { intros h fl w1 w2 [-> HW]. auto. }
  specialize (S HCC e init_rv oom flags choice p p). unfold prel, wrel in S. rewrite E in S. cbn in S. destruct S as (_ & _ & _ & _ & _ & _ & (_ & S) & _); auto 20.
Qed.

(** ** What calls leave alone *)
Definition is_done (e : event) : bool := match e with EvDone _ _ _ _ => true | _ => false end.
Definition dones (l : list event) : list event := filter is_done l.

Section Frames.
Context {X : Type}.
Implicit Types s : hs X.
Definition kept (s s' : hs X) : Prop :=
  h_module s' = h_module s /\ h_update s' = h_update s /\ h_choice s' = h_choice s /\ dones (h_log s') = dones (h_log s).
Lemma kept_refl : forall s, kept s s.
Proof. repeat split. Qed.
Lemma kept_trans : forall s1 s2 s3, kept s1 s2 -> kept s2 s3 -> kept s1 s3.
Proof. intros s1 s2 s3 (A & B & C & D) (A' & B' & C' & D'). repeat split; congruence. Qed.

Lemma set_item_loaded : forall oom oom2 ty a s rv s', set_item oom oom2 ty a s = Ok (rv, s') -> ty <> 1 -> h_loaded s' = h_loaded s.
Proof.
  intros oom oom2 ty a s rv s' H N. unfold set_item in H. rewrite (proj2 (Z.eqb_neq _ 1) N) in H.
  repeat first [ match type of H with context [if ?b then _ else _] => destruct b end
               | match type of H with context [match ?b with ANull => _ | _ => _ end] => destruct b end
               | match type of H with context [bind ?b _] => destruct b; cbn [bind] in H end
               | match type of H with context [match ?b with Some _ => _ | None => _ end] => destruct b end ];
  try discriminate; injection H as <- <-; reflexivity.
Qed.
Lemma set_item_kept : forall oom oom2 ty a s rv s', set_item oom oom2 ty a s = Ok (rv, s') -> kept s s' /\ (ty <> 1 -> h_loaded s' = h_loaded s).
Proof.
  intros oom oom2 ty a s rv s' H. split; [|intros; eapply set_item_loaded; eassumption].
  destruct (set_item_effect _ _ _ _ _ _ _ H) as (R & _). unfold rest in R. unfold kept. repeat split; congruence.
Qed.

Variable converse : nat -> X -> Z -> cstr -> X * (Z * option (option cstr)).
Lemma prompt_kept : forall oom style text s, kept s (snd (prompt converse oom style text s)) /\ h_loaded (snd (prompt converse oom style text s)) = h_loaded s.
Proof.
  intros. destruct (prompt_spec converse oom style text s) as [E|(c & fn & w & rv & resp & _ & _ & _ & E)]; rewrite E; repeat split.
Qed.
Lemma get_user_kept : forall oom1 oom2 p s r s', get_user converse oom1 oom2 p s = Ok (r, s') -> kept s s' /\ h_loaded s' = h_loaded s.
Proof.
  intros oom1 oom2 p s [rv u] s' H. destruct (h_conv s) as [c|] eqn:EC.
  2:{ unfold get_user in H. rewrite EC in H. injection H as <- <- <-. repeat split. }
  destruct (item 2 s) as [|x| | | ] eqn:EU; try (exfalso; rewrite item_user in EU; destruct (s_user (h_str s)); discriminate EU).
  2:{ rewrite (known_user_returned converse oom1 oom2 p s x) in H by congruence. injection H as <- <- <-. repeat split. }
  destruct (Z.eq_dec (h_fail_user s) 0) as [EF|NF].
  2:{ rewrite remembered_failure in H by congruence. injection H as <- <- <-. repeat split. }
  assert (D : (h_want s = false \/ h_saved s = Some (user_prompt p s)) \/ (h_want s = true /\ h_saved s <> Some (user_prompt p s))).
  { destruct (h_want s); [|auto]. destruct (h_saved s) as [q|]; [|right; split; congruence]. destruct (list_eq_dec Ascii.ascii_dec q (user_prompt p s)); [left; right; congruence|right; split; congruence]. }
  destruct D as [D|[D1 D2]].
  2:{ rewrite other_prompt_aborts in H by congruence. injection H as <- <- <-. repeat split. }
  destruct (cv_fn c) as [fn|] eqn:EFN.
  2:{ exfalso. unfold get_user in H. rewrite EC in H. rewrite item_user in EU. destruct (s_user (h_str s)); [discriminate|]. rewrite EF in H. cbn [Z.eqb negb] in H. cbv zeta in H. rewrite EFN in H.
      destruct (h_want s); [|discriminate]. destruct (h_saved s); [|destruct D; discriminate]. destruct D as [D|D]; [discriminate|]. injection D as ->.
      assert (UP : match p with Some p0 => p0 | None => match s_prompt (h_str s) with Some p0 => p0 | None => lit "login:" end end = user_prompt p s).
      { unfold user_prompt. change (item 9 s) with (of_str (s_prompt (h_str s))). destruct p; [reflexivity|]. destruct (s_prompt (h_str s)); reflexivity. }
      rewrite UP, streq_refl in H. discriminate. }
  destruct (user_asked_for converse oom1 oom2 p s rv u s' EU EF D c fn EC EFN H) as (L & _ & (_ & R) & _).
  injection R as R1 R2 R3 R4 R5 R6 R7 R8. split; [|exact R3]. unfold kept. rewrite L. repeat split; assumption.
Qed.

Lemma get_authtok_kept : forall fail ty pr nv s r s', get_authtok converse fail ty pr nv s = Ok (r, s') -> kept s s' /\ (ty <> 1 -> h_loaded s' = h_loaded s).
Proof.
  intros fail ty pr nv s r s' H. unfold get_authtok in H. cbv zeta in H.
  set (P := fun s' : hs X => kept s s' /\ (ty <> 1 -> h_loaded s' = h_loaded s)). change (P s').
  assert (PS : P s) by (split; [apply kept_refl|auto]).
  assert (PP : forall oom style text s1, P s1 -> P (snd (prompt converse oom style text s1))).
  { intros oom style text s1 [A B]. destruct (prompt_kept oom style text s1) as [A' B']. split; [eapply kept_trans; eassumption|intros N; rewrite B'; auto]. }
  assert (PV : forall b s1, P s1 -> P (set_verified b s1)) by (intros b s1 [A B]; split; [eapply kept_trans; [exact A|repeat split]|exact B]).
  assert (PI : forall oom a s1 rv s2, P s1 -> set_item oom false ty a s1 = Ok (rv, s2) -> P s2).
  { intros oom a s1 rv s2 [A B] E. destruct (set_item_kept _ _ _ _ _ _ _ E) as [A' B']. split; [eapply kept_trans; eassumption|intros N; rewrite B'; auto]. }
  match type of H with bind ?f _ = _ => assert (Q : forall at0 s1, f = Ok (at0, s1) -> P s1) end.
  { intros at0 s1 E. destruct (h_choice s =? 6); [|injection E as <- <-; exact PS]. destruct (get_option (h_args s) (lit "authtok_type")) as [t|].
    - destruct (set_item (fail 5%nat) false 13 (AStr t) s) as [[rv s2]| |] eqn:E2; cbn [bind] in E; try discriminate. injection E as <- <-.
      destruct (set_item_kept _ _ _ _ _ _ _ E2) as [A B]. split; [exact A|intros _; apply B; discriminate].
    - injection E as <- <-. exact PS. }
  match type of H with bind ?f _ = _ => destruct f as [[at0 s1]| |]; cbn [bind] in H; try discriminate end. specialize (Q _ _ eq_refl).
  set (chpass := if (h_choice s =? 6) && (ty =? 6) then if nv then 1%nat else 2%nat else 0%nat) in *.
  destruct (get_item ty s1) as [rv prev]. destruct ((rv =? 0) && negb (is_null prev)); [injection H as <- <-; exact Q|].
  match type of H with (if ?b then _ else _) = _ => destruct b end; [destruct (is_null prev); injection H as <- <-; exact Q|].
  assert (TW : forall t1 t2 s0, P s0 -> P (snd (let '(rv, r0, s) := prompt converse (fail 1%nat) 1 t1 s0 in
    match r0 with
    | Some _ => if (rv =? 0) && (1 <? chpass)%nat then let '(rv, r1, s) := prompt converse (fail 2%nat) 1 t2 s in (rv, r0, r1, s) else (rv, r0, None, s)
    | None => (rv, r0, None, s)
    end))).
  { intros t1 t2 s0 P0. pose proof (PP (fail 1%nat) 1 t1 s0 P0) as P1. destruct (prompt converse (fail 1%nat) 1 t1 s0) as [[rv1 r0] s2]. cbn [snd] in P1.
    destruct r0 as [t|]; [|exact P1]. destruct ((rv1 =? 0) && (1 <? chpass)%nat); [|exact P1]. pose proof (PP (fail 2%nat) 1 t2 s2 P1) as P2. destruct (prompt converse (fail 2%nat) 1 t2 s2) as [[rv2 r1] s3]. exact P2. }
  match type of H with (match ?f with (_, _) => _ end) = _ => assert (P3 : P (snd f)); [|destruct f as [[[rv3 r0] r1] s3]] end.
  { destruct pr as [p|]; [apply TW; exact Q|]. destruct (0 <? chpass)%nat; [apply TW, PV, Q|]. destruct (ty =? 7); apply TW; exact Q. }
  cbn [snd] in P3.
  assert (PE : forall t, P (if (0 <? chpass)%nat then snd (prompt converse (fail 4%nat) 3 t s3) else s3)) by (intros; destruct (0 <? chpass)%nat; [apply PP|]; exact P3).
  assert (ST : forall t0, bind (set_item (fail 3%nat) false ty (AStr t0) s3) (fun '(rv, s) =>
        if negb (rv =? 0) then Ok (rv, None, s)
        else let s := if (1 <? chpass)%nat then set_verified true s else s in
             let (rv, v) := get_item ty s in Ok (rv, Some v, s)) = Ok (r, s') -> P s').
  { intros t0 E. destruct (set_item (fail 3%nat) false ty (AStr t0) s3) as [[rv4 s4]| |] eqn:E4; cbn [bind] in E; try discriminate. pose proof (PI _ _ _ _ _ P3 E4) as P4.
    destruct (negb (rv4 =? 0)); [injection E as <- <-; exact P4|]. cbv zeta in E.
    destruct (1 <? chpass)%nat; match type of E with (match ?g with (_, _) => _ end) = _ => destruct g end; injection E as <- <-; [apply PV|]; exact P4. }
  destruct r0 as [t0|]; [|injection H as <- <-; apply PE]. destruct (negb (rv3 =? 0)); [injection H as <- <-; apply PE|].
  destruct (1 <? chpass)%nat eqn:EC; [|eapply ST; exact H]. destruct r1 as [t1|]; [|injection H as <- <-; apply PE].
  destruct (negb (streq t0 t1)); [injection H as <- <-; apply PE|eapply ST; exact H].
Qed.
Lemma get_authtok_verify_kept : forall fail given pr s r s', get_authtok_verify converse fail given pr s = Ok (r, s') -> kept s s' /\ h_loaded s' = h_loaded s.
Proof.
  intros fail given pr s r s' H. unfold get_authtok_verify in H. cbv zeta in H. destruct (negb (h_choice s =? 6)); [injection H as <- <-; repeat split|].
  destruct (h_verified s); [destruct (get_item 6 s); injection H as <- <-; repeat split|].
  set (P := fun s' : hs X => kept s s' /\ h_loaded s' = h_loaded s). change (P s').
  assert (PP : forall oom style text s1, P s1 -> P (snd (prompt converse oom style text s1))).
  { intros oom style text s1 [A B]. destruct (prompt_kept oom style text s1) as [A' B']. split; [eapply kept_trans; eassumption|congruence]. }
  assert (PI : forall oom a s1 rv s2, P s1 -> set_item oom false 6 a s1 = Ok (rv, s2) -> P s2).
  { intros oom a s1 rv s2 [A B] E. destruct (set_item_kept _ _ _ _ _ _ _ E) as [A' B']. split; [eapply kept_trans; eassumption|rewrite B'; [exact B|discriminate]]. }
  match type of H with context [prompt converse ?a ?b ?c ?d] => assert (P3 : P (snd (prompt converse a b c d))) by (apply PP; split; [apply kept_refl|reflexivity]); destruct (prompt converse a b c d) as [[rv3 r3] s3] end.
  cbn [snd] in P3.
  assert (DR : forall (e : Z) t, bind (bind (set_item false false 6 ANull s3) (fun '(_, s) => Ok (snd (prompt converse (fail 4%nat) 3 t s)))) (fun s => Ok (e, @None ival, s)) = Ok (r, s') -> P s').
  { intros e t Q. destruct (set_item false false 6 ANull s3) as [[r0 s4]| |] eqn:E4; cbn [bind] in Q; try discriminate. injection Q as <- <-. apply PP. eapply PI; eassumption. }
  destruct r3 as [t|]; [|eapply DR; exact H]. destruct (rv3 =? 0); [|eapply DR; exact H]. destruct (negb (streq given t)); [eapply DR; exact H|].
  destruct (set_item (fail 3%nat) false 6 (AStr t) s3) as [[r0 s4]| |] eqn:E4; cbn [bind] in H; try discriminate. pose proof (PI _ _ _ _ _ P3 E4) as P4.
  destruct (negb (r0 =? 0)); [injection H as <- <-; exact P4|]. destruct (get_item 6 (set_verified true s4)). injection H as <- <-.
  destruct P4 as [A B]. split; [eapply kept_trans; [exact A|repeat split]|exact B].
Qed.

(** Calls that cannot set PAM_SERVICE. *)
Definition no_service (o : op X) : Prop := match o with OSet ty _ _ _ => ty <> 1 | OAuthtok ty _ _ _ => ty <> 1 | _ => True end.
Fixpoint keeps_service (p : mprog X) : Prop := match p with Ret _ => True | Call o k => no_service o /\ forall a, keeps_service (k a) end.

Lemma run_op_kept : forall o s a s', run_op converse o s = Ok (a, s') -> kept s s' /\ (no_service o -> h_loaded s' = h_loaded s).
Proof.
  intros o s a s' H. destruct o as [ty ar o1 o2|ty|pr o1 o2|ty pr nv f|g pr f|st t o1|us|m fl|f]; cbn [run_op no_service] in *.
  - destruct (set_item o1 o2 ty ar s) as [[rv s1]| |] eqn:E; cbn [bind] in H; try discriminate. injection H as <- <-. eapply set_item_kept; eassumption.
  - destruct (get_item ty s). injection H as <- <-. repeat split.
  - destruct (get_user converse o1 o2 pr s) as [[[rv u] s1]| |] eqn:E; cbn [bind] in H; try discriminate. injection H as <- <-. apply get_user_kept in E. tauto.
  - destruct (get_authtok converse f ty pr nv s) as [[[rv u] s1]| |] eqn:E; cbn [bind] in H; try discriminate. injection H as <- <-. apply get_authtok_kept in E. tauto.
  - destruct (get_authtok_verify converse f g pr s) as [[[rv u] s1]| |] eqn:E; cbn [bind] in H; try discriminate. injection H as <- <-. apply get_authtok_verify_kept in E. tauto.
  - pose proof (prompt_kept o1 st t s) as [A B]. destruct (prompt converse o1 st t s) as [[rv r] s1]. injection H as <- <-. tauto.
  - destruct (pam_fail_delay us (h_delay s)). injection H as <- <-. repeat split.
  - destruct (h_module s); [|discriminate]. injection H as <- <-. repeat split.
  - destruct (f (h_world s)). injection H as <- <-. repeat split.
Qed.
Lemma run_kept : forall p s, kept s (fst (run converse p s)) /\ (keeps_service p -> h_loaded (fst (run converse p s)) = h_loaded s).
Proof.
  induction p as [r|o k IH]; intros s; cbn [run keeps_service]; [repeat split|].
  destruct (run_op converse o s) as [[a s1]| |] eqn:E; try (repeat split; fail). destruct (run_op_kept _ _ _ _ E) as [A B]. destruct (IH a s1) as [A' B'].
  split; [eapply kept_trans; eassumption|]. intros [K1 K2]. rewrite B' by apply K2. auto.
Qed.
Variable code : nat -> Z -> list cstr -> mprog X.
Lemma call_kept : forall h flags s, kept s (fst (call converse code h flags s)) /\ ((forall f fl l, keeps_service (code f fl l)) -> h_loaded (fst (call converse code h flags s)) = h_loaded s).
Proof.
  intros h flags s. unfold call. destruct (h_func h) as [f|]; [|repeat split].
  match goal with |- context [run converse ?p ?s1] => destruct (run_kept p s1) as [A B]; destruct (run converse p s1) as [s2 r] end. cbn [fst] in *.
  split; [eapply kept_trans; [|eapply kept_trans; [exact A|]]; repeat split|]. intros K. cbn in B. cbn. apply B. apply K.
Qed.
End Frames.

(** ** _pam_dispatch on a handle *)
Lemma auditlog_cases : forall e choice r g, auditlog e choice r g = r \/ auditlog e choice r g = 4.
Proof.
  intros e choice r g. unfold auditlog. destruct e as [| |a w]; auto.
  destruct w; auto. match goal with |- context [if ?b then r else 4] => destruct b end.
  - match goal with |- context [if ?b then 4 else r] => destruct b end; auto.
  - cbn. auto.
Qed.
(** The audit subsystem does not change PAM_INCOMPLETE into something else. *)
Definition audit_quiet (e : audit_env) : Prop := match e with AuNone => True | AuOpen _ true => True | _ => False end.
Lemma auditlog_quiet : forall e choice r g, audit_quiet e -> 1 <= choice <= 6 -> auditlog e choice r g = 31 <-> r = 31.
Proof.
  intros e choice r g Q R. unfold auditlog. destruct e as [| |a w]; [tauto|contradiction|]. destruct w; [|contradiction].
  replace ((1 <=? choice) && (choice <=? 6)) with true by (symmetry; apply andb_true_intro; split; apply Z.leb_le; lia). cbn [orb].
  destruct (Z.eqb_spec r 0) as [->|N]; cbn [andb]; [|tauto]. destruct (negb _ && negb a); split; discriminate.
Qed.

Section HDispatch.
Context {X : Type}.
Variable converse : nat -> X -> Z -> cstr -> X * (Z * option (option cstr)).
Variable code : nat -> Z -> list cstr -> mprog X.
Variable load : X -> cstr -> res (Z * cst).
Implicit Types p : dpam (hs X).

Lemma init_spec : forall oom p rv p', init load oom p = Ok (rv, p') ->
  kept (the_hs p) (the_hs p') /\ dp_fchoice p' = dp_fchoice p /\ dp_former p' = dp_former p /\ dp_from_module p' = dp_from_module p /\
  (h_loaded (the_hs p) = true -> rv = 0 /\ p' = p) /\ h_world (the_hs p') = h_world (the_hs p) /\ h_log (the_hs p') = h_log (the_hs p).
Proof.
  intros oom p rv p' H. unfold init in H. destruct (h_loaded (the_hs p)); [injection H as <- <-; repeat split|].
  destruct oom; [injection H as <- <-; repeat split; discriminate|]. destruct (s_service (h_str (the_hs p))) as [n|]; [|injection H as <- <-; repeat split; discriminate].
  destruct (load (h_world (the_hs p)) n) as [[rv0 c]| |]; cbn [bind] in H; try discriminate. injection H as <- <-. destruct (rv0 =? 0); repeat split; discriminate.
Qed.

Lemma dispatch_out : forall (W : Type) (call : handler -> Z -> W -> W * Z) rv oom flags choice (p : dpam W) z (p' : dpam W),
  dispatch call rv oom flags choice p = Ok (z, p') -> dp_from_module p = false ->
  dp_from_module p' = false /\
  if (rv =? 0) && match stack_for p choice with None => false | Some _ => true end && ((dp_fchoice p =? 0) || (dp_fchoice p =? choice))
  then dp_fchoice p' = (if z =? 31 then choice else 0) else p' = p /\ z = (if rv =? 0 then 26 else rv).
Proof.
  intros W call rv oom flags choice p z p' H HF. unfold dispatch in H. rewrite HF in H. destruct (Z.eqb_spec rv 0) as [->|N]; cbn [negb andb] in *.
  2:{ injection H as <- <-. auto. }
  destruct (stack_for p choice) as [l|]; cbn [andb]; [|injection H as <- <-; auto]. rewrite <- negb_orb in H. destruct ((dp_fchoice p =? 0) || (dp_fchoice p =? choice)); cbn [negb] in H.
  2:{ injection H as <- <-; auto. }
  match type of H with match ?f with _ => _ end = _ => destruct f as [st s'|fo s'| |] end; try discriminate; injection H as <- <-; split; reflexivity.
Qed.

Lemma hdispatch_cases : forall e flags choice p r p', hdispatch converse code load e flags choice p = Ok (r, p') ->
  h_module (the_hs p) = false -> dp_from_module p = false -> 1 <= choice <= 6 ->
  h_module (the_hs p') = false /\ dp_from_module p' = false /\ h_update (the_hs p') = h_update (the_hs p) /\
  ((dones (h_log (the_hs p')) = dones (h_log (the_hs p)) /\ dp_fchoice p' = dp_fchoice p /\ r <> 0 /\ h_loaded (the_hs p) && ((dp_fchoice p =? 0) || (dp_fchoice p =? choice)) = false /\
     (h_loaded (the_hs p) = true -> r = 26 \/ r = 4) /\ (h_loaded (the_hs p) = true -> h_loaded (the_hs p') = true)) \/
   ((dp_fchoice p = 0 \/ dp_fchoice p = choice) /\
    dones (h_log (the_hs p')) = EvDone choice flags (negb (dp_fchoice p =? 0)) r :: dones (h_log (the_hs p)) /\
    (dp_fchoice p' = 0 \/ dp_fchoice p' = choice) /\ (r = 31 -> dp_fchoice p' = choice) /\ (r <> 31 -> r <> 4 -> dp_fchoice p' = 0) /\
    (audit_quiet (ce_audit e) -> dp_fchoice p' = if r =? 31 then choice else 0) /\
    ((forall f fl l, keeps_service (code f fl l)) -> h_loaded (the_hs p) = true -> h_loaded (the_hs p') = true))).
Proof.
  intros e flags choice p r p' H HM HF HC. unfold hdispatch in H. rewrite HM in H.
  destruct (init load (ce_load_oom e) p) as [[rv p0]| |] eqn:EI; cbn [bind] in H; try discriminate.
  destruct (init_spec _ _ _ _ EI) as (K0 & C0 & F0 & M0 & L0 & _ & LG0). cbv zeta in H.
  assert (ST : exists l, stack_for p0 choice = Some l).
  { unfold stack_for. assert (PK : forall t, exists l, pick t choice = Some l).
    { intros t. unfold pick. assert (D : choice = 1 \/ choice = 2 \/ choice = 3 \/ choice = 4 \/ choice = 5 \/ choice = 6) by lia.
      destruct D as [->|[->|[->|[->|[->| ->]]]]]; cbn; eexists; reflexivity. }
    destruct (PK (dp_conf p0)) as [l ->]. destruct l as [|a l]; [apply PK|eexists; reflexivity]. }
  destruct ST as [l ST]. rewrite ST in H. rewrite andb_true_r in H. rewrite C0 in H.
  set (runs := (rv =? 0) && ((dp_fchoice p =? 0) || (dp_fchoice p =? choice))) in *.
  match type of H with context [dispatch_audited ?c ?e0 rv ?o flags choice ?q] => destruct (dispatch_audited c e0 rv o flags choice q) as [[r1 p1]| |] eqn:ED end; cbn [bind] in H; try discriminate.
  match type of H with (if ?b then _ else _) = _ => destruct b end; [discriminate|]. injection H as <- <-.
  pose proof ED as ED'. unfold dispatch_audited in ED'.
  match type of ED' with match ?f with _ => _ end = _ => destruct f as [[z q]| |] eqn:EZ end; try discriminate.
  assert (QP : q = p1 /\ r1 = (if negb (choice =? 6) || negb (Z.land flags 8192 =? 0) || negb (z =? 0) then auditlog (ce_audit e) choice z (grant (dp_st q)) else z)).
  { destruct (negb (choice =? 6) || negb (Z.land flags 8192 =? 0) || negb (z =? 0)); injection ED' as <- <-; auto. }
  destruct QP as [-> R1]. clear ED'. apply dispatch_out in EZ. 2:{ destruct runs; cbn; congruence. }
  destruct EZ as [M1 EZ].
  destruct runs eqn:ER.
  - unfold runs in ER. apply andb_prop in ER. destruct ER as [ER1 ER2]. apply Z.eqb_eq in ER1. subst rv.
    replace (stack_for (on_hs (fun s => set_choice choice (set_module true s)) p0) choice) with (stack_for p0 choice) in EZ by reflexivity.
    rewrite ST in EZ. cbn [dp_fchoice on_hs Z.eqb andb] in EZ. rewrite C0, ER2 in EZ. cbn [andb] in EZ.
    pose proof (dispatch_audited_inv _ (call converse code) (kept (the_hs (on_hs (fun s => set_choice choice (set_module true s)) p0)))) as INV.
    specialize (INV (fun h fl w K => kept_trans _ _ _ K (proj1 (call_kept converse code h fl w))) _ _ _ _ _ _ _ _ (kept_refl _) ED).
    destruct INV as (I1 & I2 & I3 & I4). cbn in I1, I2, I3, I4.
    split; [reflexivity|]. split; [exact M1|]. split; [cbn; rewrite I2; apply K0|]. right.
    split; [apply orb_prop in ER2; destruct ER2 as [E|E]; apply Z.eqb_eq in E; auto|].
    split; [etransitivity; [|apply (f_equal (cons (EvDone choice flags (negb (dp_fchoice p =? 0)) r1))); rewrite <- LG0; exact I4]; reflexivity|].
    change (dp_fchoice (on_hs (fun s => set_log (EvDone choice flags (negb (dp_fchoice p =? 0)) r1 :: h_log s) (set_module false s)) p1)) with (dp_fchoice p1).
    split; [rewrite EZ; destruct (z =? 31); auto|].
    split.
    { intros ->. rewrite EZ. destruct (Z.eqb_spec z 31); [reflexivity|]. exfalso. destruct (negb (choice =? 6) || negb (Z.land flags 8192 =? 0) || negb (z =? 0)); [|congruence].
      destruct (auditlog_cases (ce_audit e) choice z (grant (dp_st p1))); congruence. }
    split.
    { intros N1 N2. rewrite EZ. destruct (Z.eqb_spec z 31) as [->|]; [|reflexivity]. exfalso. destruct (negb (choice =? 6) || negb (Z.land flags 8192 =? 0) || negb (31 =? 0)); [|congruence].
      destruct (auditlog_cases (ce_audit e) choice 31 (grant (dp_st p1))); congruence. }
    split.
    { intros Q. rewrite EZ. destruct (negb (choice =? 6) || negb (Z.land flags 8192 =? 0) || negb (z =? 0)); [|rewrite R1; reflexivity].
      pose proof (auditlog_quiet _ choice z (grant (dp_st p1)) Q HC) as A. rewrite <- R1 in A. destruct (Z.eqb_spec z 31), (Z.eqb_spec r1 31); try reflexivity; exfalso; tauto. }
    intros K L. destruct (L0 L) as [_ ->]. cbn.
    apply (dispatch_audited_inv _ (call converse code) (fun s => h_loaded s = true)) in ED; [exact ED| |exact L].
    intros h fl w Lw. rewrite (proj2 (call_kept converse code h fl w) K). exact Lw.
  - split; [|split; [exact M1|]].
    + destruct ((rv =? 0) && match stack_for p0 choice with Some _ => true | None => false end && ((dp_fchoice p0 =? 0) || (dp_fchoice p0 =? choice))) eqn:EB.
      * exfalso. rewrite ST, andb_true_r, C0 in EB. fold runs in EB. congruence.
      * destruct EZ as [-> _]. destruct K0 as [K0 _]. congruence.
    + rewrite ST, andb_true_r, C0 in EZ. unfold runs in ER. rewrite ER in EZ. destruct EZ as [-> EZ]. split; [apply K0|]. left. split; [apply K0|]. split; [exact C0|]. 
      split.
      { subst r1. destruct (Z.eqb_spec rv 0).
        - subst z. cbn. rewrite orb_true_r. destruct (auditlog_cases (ce_audit e) choice 26 (grant (dp_st p0))) as [Q|Q]; rewrite Q; discriminate.
        - subst z. rewrite (proj2 (Z.eqb_neq rv 0)) by assumption. rewrite orb_true_r. destruct (auditlog_cases (ce_audit e) choice rv (grant (dp_st p0))) as [Q|Q]; rewrite Q; [assumption|discriminate]. }
      split.
      { destruct (h_loaded (the_hs p)); [|reflexivity]. destruct (L0 eq_refl) as [-> _]. cbn in ER. exact ER. }
      split.
      { intros L. destruct (L0 L) as [-> ->]. cbn in EZ. subst z r1. cbn. rewrite orb_true_r. destruct (auditlog_cases (ce_audit e) choice 26 (grant (dp_st p))) as [Q|Q]; rewrite Q; auto. }
      intros L. destruct (L0 L) as [_ ->]. exact L.
Qed.
End HDispatch.
