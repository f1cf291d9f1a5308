(** C47: the modules that run come from a configuration read completely for the service the handle names. *)
From Coq Require Import String Ascii List Arith ZArith QArith Lia Bool.
From Verif Require Import Base Dispatch_Model Delay_Model Item_Model Conf_Model Handle_Model Item_Props Handle_Proofs Handle_Props.
Import ListNotations.
Local Open Scope Z_scope.

Section Served.
Context {X : Type}.
Implicit Types s : hs X.
(** Handlers that still count as loaded are those of the same service. *)
Definition served (s s' : hs X) : Prop := h_loaded s' = true -> h_loaded s = true /\ item 1 s' = item 1 s.
Lemma served_refl : forall s, served s s.
Proof. intros s H. auto. Qed.
Lemma served_trans : forall s1 s2 s3, served s1 s2 -> served s2 s3 -> served s1 s3.
Proof. intros s1 s2 s3 A B H. destruct (B H) as [H2 E]. destruct (A H2) as [H1 E']. split; congruence. Qed.
Lemma served_same : forall s s', h_loaded s' = h_loaded s -> h_str s' = h_str s -> served s s'.
Proof. intros s s' L S H. split; [congruence|]. unfold item, get_item. cbn. rewrite S. reflexivity. Qed.

Lemma set_item_served : forall oom oom2 ty a s rv s', set_item oom oom2 ty a s = Ok (rv, s') -> served s s'.
Proof.
  intros oom oom2 ty a s rv s' H L. destruct (Z.eq_dec ty 1) as [->|N].
  - unfold set_item in H. cbn [Z.eqb Pos.eqb] in H.
    assert (D : (s' = s) \/ h_loaded s' = false).
    { destruct a; repeat first [ injection H as <- <-; first [left; reflexivity | right; reflexivity]
         | match type of H with context [bind ?b _] => destruct b; cbn [bind] in H; try discriminate end
         | match type of H with context [match ?b with Some _ => _ | None => _ end] => destruct b; try discriminate end ]. }
    destruct D as [->|D]; [auto|congruence].
  - split; [rewrite <- L; symmetry; eapply set_item_loaded; eassumption|]. destruct (set_item_effect _ _ _ _ _ _ _ H) as (_ & O & _). apply O. congruence.
Qed.

Variable converse : nat -> X -> Z -> cstr -> X * (Z * option (option cstr)).
Lemma prompt_served : forall oom style text s, served s (snd (prompt converse oom style text s)).
Proof.
  intros. destruct (prompt_spec converse oom style text s) as [E|(c & fn & w & rv & resp & _ & _ & _ & E)]; rewrite E; apply served_same; reflexivity.
Qed.
Lemma get_user_served : forall oom1 oom2 p s r s', get_user converse oom1 oom2 p s = Ok (r, s') -> served s s'.
Proof.
  intros oom1 oom2 p s r s' H. unfold get_user in H. destruct (h_conv s) as [c|]; [|injection H as <- <-; apply served_refl].
  destruct (s_user (h_str s)); [injection H as <- <-; apply served_refl|]. destruct (negb (h_fail_user s =? 0)); [injection H as <- <-; apply served_refl|]. cbv zeta in H.
  set (use := match p with Some p => p | None => match s_prompt (h_str s) with Some p => p | None => lit "login:" end end) in *.
  assert (G : forall s0, served s s0 -> match cv_fn c with
        | None => UB
        | Some fn =>
          let '(rv, resp, s) := ask converse fn 2 use s0 in
          if (if (rv =? 0) || (rv =? 5) || (rv =? 30) || (rv =? 19) then rv else 19) =? 30 then Ok ((if (rv =? 0) || (rv =? 5) || (rv =? 30) || (rv =? 19) then rv else 19), None, set_want true (if oom1 then None else Some use) s)
          else if (if (rv =? 0) || (rv =? 5) || (rv =? 30) || (rv =? 19) then rv else 19) =? 0 then
            match resp with
            | Some (Some r) => bind (set_item oom2 false 2 (AStr r) s) (fun '(rv, s) => Ok (rv, s_user (h_str s), s))
            | _ => Ok (19, None, set_fail_user 19 s)
            end
          else Ok ((if (rv =? 0) || (rv =? 5) || (rv =? 30) || (rv =? 19) then rv else 19), None, set_fail_user (if (rv =? 0) || (rv =? 5) || (rv =? 30) || (rv =? 19) then rv else 19) s)
        end = Ok (r, s') -> served s s').
  { intros s0 S0 Q. destruct (cv_fn c) as [fn|]; [|discriminate]. unfold ask in Q. destruct (converse fn (h_world s0) 2 use) as [w [r0 resp]].
    set (s1 := set_world w (set_log (EvConv fn 2 use :: h_log s0) s0)) in *. assert (S1 : served s s1) by (eapply served_trans; [exact S0|apply served_same; reflexivity]).
    match type of Q with (if ?b then _ else _) = _ => destruct b end; [injection Q as <- <-; eapply served_trans; [exact S1|apply served_same; reflexivity]|].
    match type of Q with (if ?b then _ else _) = _ => destruct b end; [|injection Q as <- <-; eapply served_trans; [exact S1|apply served_same; reflexivity]].
    destruct resp as [[t|]|]; [|injection Q as <- <-; eapply served_trans; [exact S1|apply served_same; reflexivity]..].
    destruct (set_item oom2 false 2 (AStr t) s1) as [[rv s2]| |] eqn:E; cbn [bind] in Q; try discriminate. injection Q as <- <-. eapply served_trans; [exact S1|eapply set_item_served; exact E]. }
  destruct (h_want s); [|apply (G s); [apply served_refl|exact H]]. destruct (h_saved s) as [q|]; [|injection H as <- <-; apply served_refl].
  destruct (negb (streq q use)); [injection H as <- <-; apply served_refl|]. apply (G (set_want false None s)); [apply served_same; reflexivity|exact H].
Qed.

Lemma get_authtok_served : forall fail ty pr nv s r s', get_authtok converse fail ty pr nv s = Ok (r, s') -> served s s'.
Proof.
  intros fail ty pr nv s r s' H. unfold get_authtok in H. cbv zeta in H.
  set (P := fun s' : hs X => served s s'). change (P s').
  assert (PS : P s) by apply served_refl.
  assert (PP : forall oom style text s1, P s1 -> P (snd (prompt converse oom style text s1))).
  { intros oom style text s1 A. eapply served_trans; [exact A|apply prompt_served]. }
  assert (PV : forall b s1, P s1 -> P (set_verified b s1)) by (intros b s1 A; eapply served_trans; [exact A|apply served_same; reflexivity]).
  assert (PI : forall oom a ty s1 rv s2, P s1 -> set_item oom false ty a s1 = Ok (rv, s2) -> P s2).
  { intros oom a ty0 s1 rv s2 A E. eapply served_trans; [exact A|eapply set_item_served; exact E]. }
  match type of H with bind ?f _ = _ => assert (Q : forall at0 s1, f = Ok (at0, s1) -> P s1) end.
  { intros at0 s1 E. destruct (h_choice s =? 6); [|injection E as <- <-; exact PS]. destruct (get_option (h_args s) (lit "authtok_type")) as [t|].
    - destruct (set_item (fail 5%nat) false 13 (AStr t) s) as [[rv s2]| |] eqn:E2; cbn [bind] in E; try discriminate. injection E as <- <-. eapply PI; eassumption.
    - injection E as <- <-. exact PS. }
  match type of H with bind ?f _ = _ => destruct f as [[at0 s1]| |]; cbn [bind] in H; try discriminate end. specialize (Q _ _ eq_refl).
  set (chpass := if (h_choice s =? 6) && (ty =? 6) then if nv then 1%nat else 2%nat else 0%nat) in *.
  destruct (get_item ty s1) as [rv prev]. destruct ((rv =? 0) && negb (is_null prev)); [injection H as <- <-; exact Q|].
  match type of H with (if ?b then _ else _) = _ => destruct b end; [destruct (is_null prev); injection H as <- <-; exact Q|].
  assert (TW : forall t1 t2 s0, P s0 -> P (snd (let '(rv, r0, s) := prompt converse (fail 1%nat) 1 t1 s0 in
    match r0 with
    | Some _ => if (rv =? 0) && (1 <? chpass)%nat then let '(rv, r1, s) := prompt converse (fail 2%nat) 1 t2 s in (rv, r0, r1, s) else (rv, r0, None, s)
    | None => (rv, r0, None, s)
    end))).
  { intros t1 t2 s0 P0. pose proof (PP (fail 1%nat) 1 t1 s0 P0) as P1. destruct (prompt converse (fail 1%nat) 1 t1 s0) as [[rv1 r0] s2]. cbn [snd] in P1.
    destruct r0 as [t|]; [|exact P1]. destruct ((rv1 =? 0) && (1 <? chpass)%nat); [|exact P1]. pose proof (PP (fail 2%nat) 1 t2 s2 P1) as P2. destruct (prompt converse (fail 2%nat) 1 t2 s2) as [[rv2 r1] s3]. exact P2. }
  match type of H with (match ?f with (_, _) => _ end) = _ => assert (P3 : P (snd f)); [|destruct f as [[[rv3 r0] r1] s3]] end.
  { destruct pr as [p|]; [apply TW; exact Q|]. destruct (0 <? chpass)%nat; [apply TW, PV, Q|]. destruct (ty =? 7); apply TW; exact Q. }
  cbn [snd] in P3.
  assert (PE : forall t, P (if (0 <? chpass)%nat then snd (prompt converse (fail 4%nat) 3 t s3) else s3)) by (intros; destruct (0 <? chpass)%nat; [apply PP|]; exact P3).
  assert (ST : forall t0, bind (set_item (fail 3%nat) false ty (AStr t0) s3) (fun '(rv, s) =>
        if negb (rv =? 0) then Ok (rv, None, s)
        else let s := if (1 <? chpass)%nat then set_verified true s else s in
             let (rv, v) := get_item ty s in Ok (rv, Some v, s)) = Ok (r, s') -> P s').
  { intros t0 E. destruct (set_item (fail 3%nat) false ty (AStr t0) s3) as [[rv4 s4]| |] eqn:E4; cbn [bind] in E; try discriminate. pose proof (PI _ _ _ _ _ _ P3 E4) as P4.
    destruct (negb (rv4 =? 0)); [injection E as <- <-; exact P4|]. cbv zeta in E.
    destruct (1 <? chpass)%nat; match type of E with (match ?g with (_, _) => _ end) = _ => destruct g end; injection E as <- <-; [apply PV|]; exact P4. }
  destruct r0 as [t0|]; [|injection H as <- <-; apply PE]. destruct (negb (rv3 =? 0)); [injection H as <- <-; apply PE|].
  destruct (1 <? chpass)%nat eqn:EC; [|eapply ST; exact H]. destruct r1 as [t1|]; [|injection H as <- <-; apply PE].
  destruct (negb (streq t0 t1)); [injection H as <- <-; apply PE|eapply ST; exact H].
Qed.
Lemma get_authtok_verify_served : forall fail given pr s r s', get_authtok_verify converse fail given pr s = Ok (r, s') -> served s s'.
Proof.
  intros fail given pr s r s' H. unfold get_authtok_verify in H. cbv zeta in H. destruct (negb (h_choice s =? 6)); [injection H as <- <-; apply served_refl|].
  destruct (h_verified s); [destruct (get_item 6 s); injection H as <- <-; apply served_refl|].
  set (P := fun s' : hs X => served s s'). change (P s').
  assert (PP : forall oom style text s1, P s1 -> P (snd (prompt converse oom style text s1))).
  { intros oom style text s1 A. eapply served_trans; [exact A|apply prompt_served]. }
  assert (PI : forall oom a s1 rv s2, P s1 -> set_item oom false 6 a s1 = Ok (rv, s2) -> P s2).
  { intros oom a s1 rv s2 A E. eapply served_trans; [exact A|eapply set_item_served; exact E]. }
  match type of H with context [prompt converse ?a ?b ?c ?d] => assert (P3 : P (snd (prompt converse a b c d))) by (apply PP; apply served_refl); destruct (prompt converse a b c d) as [[rv3 r3] s3] end.
  cbn [snd] in P3.
  assert (DR : forall (e : Z) t, bind (bind (set_item false false 6 ANull s3) (fun '(_, s) => Ok (snd (prompt converse (fail 4%nat) 3 t s)))) (fun s => Ok (e, @None ival, s)) = Ok (r, s') -> P s').
  { intros e t Q. destruct (set_item false false 6 ANull s3) as [[r0 s4]| |] eqn:E4; cbn [bind] in Q; try discriminate. injection Q as <- <-. apply PP. eapply PI; eassumption. }
  destruct r3 as [t|]; [|eapply DR; exact H]. destruct (rv3 =? 0); [|eapply DR; exact H]. destruct (negb (streq given t)); [eapply DR; exact H|].
  destruct (set_item (fail 3%nat) false 6 (AStr t) s3) as [[r0 s4]| |] eqn:E4; cbn [bind] in H; try discriminate. pose proof (PI _ _ _ _ _ P3 E4) as P4.
  destruct (negb (r0 =? 0)); [injection H as <- <-; exact P4|]. destruct (get_item 6 (set_verified true s4)). injection H as <- <-.
  eapply served_trans; [exact P4|apply served_same; reflexivity].
Qed.
Lemma run_op_served : forall o s a s', run_op converse o s = Ok (a, s') -> served s s'.
Proof.
  intros o s a s' H. destruct o as [ty ar o1 o2|ty|pr o1 o2|ty pr nv f|g pr f|st t o1|us|m fl|f]; cbn [run_op] in *.
  - destruct (set_item o1 o2 ty ar s) as [[rv s1]| |] eqn:E; cbn [bind] in H; try discriminate. injection H as <- <-. eapply set_item_served; eassumption.
  - destruct (get_item ty s). injection H as <- <-. apply served_refl.
  - destruct (get_user converse o1 o2 pr s) as [[[rv u] s1]| |] eqn:E; cbn [bind] in H; try discriminate. injection H as <- <-. eapply get_user_served; exact E.
  - destruct (get_authtok converse f ty pr nv s) as [[[rv u] s1]| |] eqn:E; cbn [bind] in H; try discriminate. injection H as <- <-. eapply get_authtok_served; exact E.
  - destruct (get_authtok_verify converse f g pr s) as [[[rv u] s1]| |] eqn:E; cbn [bind] in H; try discriminate. injection H as <- <-. eapply get_authtok_verify_served; exact E.
  - pose proof (prompt_served o1 st t s) as A. destruct (prompt converse o1 st t s) as [[rv r] s1]. injection H as <- <-. exact A.
  - destruct (pam_fail_delay us (h_delay s)). injection H as <- <-. apply served_same; reflexivity.
  - destruct (h_module s); [|discriminate]. injection H as <- <-. apply served_refl.
  - destruct (f (h_world s)). injection H as <- <-. apply served_same; reflexivity.
Qed.
Lemma run_served : forall p s, served s (fst (run converse p s)).
Proof.
  induction p as [r|o k IH]; intros s; cbn [run]; [apply served_refl|].
  destruct (run_op converse o s) as [[a s1]| |] eqn:E; try (apply served_same; reflexivity). eapply served_trans; [eapply run_op_served; exact E|apply IH].
Qed.
Variable code : nat -> Z -> list cstr -> mprog X.
Lemma call_served : forall h flags s, served s (fst (call converse code h flags s)).
Proof.
  intros h flags s. unfold call. destruct (h_func h) as [f|]; [|apply served_refl].
  match goal with |- context [run converse ?p ?s1] => pose proof (run_served p s1) as A; destruct (run converse p s1) as [s2 r] end. cbn [fst] in *.
  eapply served_trans; [|eapply served_trans; [exact A|]]; apply served_same; reflexivity.
Qed.
End Served.

Section Loaded.
Context {X : Type}.
Variable converse : nat -> X -> Z -> cstr -> X * (Z * option (option cstr)).
Variable code : nat -> Z -> list cstr -> mprog X.
Variable load : X -> cstr -> res (Z * cst).
Variables rnd1 rnd2 rnd3 rnd4 rnd5 : Q -> Q.
Implicit Types p : dpam (hs X).
Notation act := (act converse code load rnd1 rnd2 rnd3 rnd4 rnd5).
Notation acts := (acts converse code load rnd1 rnd2 rnd3 rnd4 rnd5).
Notation hdispatch := (hdispatch converse code load).

(** The tables of the handle are what a successful reading of its service's configuration gave. *)
Definition complete (p : dpam (hs X)) : Prop :=
  exists w n c, item 1 (the_hs p) = VStr n /\ load w n = Ok (0, c) /\ dp_conf p = c_conf c /\ dp_other p = c_other c.
Definition honest (p : dpam (hs X)) : Prop := h_loaded (the_hs p) = true -> complete p.

Lemma step_honest : forall p p', honest p -> served (the_hs p) (the_hs p') -> dp_conf p' = dp_conf p -> dp_other p' = dp_other p -> honest p'.
Proof.
  intros p p' H S C O L. destruct (S L) as [L0 I]. destruct (H L0) as (w & n & c & A & B & D & E). exists w, n, c. split; [rewrite I; exact A|]. split; [exact B|]. split; congruence.
Qed.
Lemma init_honest : forall oom p rv p', init load oom p = Ok (rv, p') -> honest p -> honest p' /\ (rv = 0 -> complete p').
Proof.
  intros oom p rv p' H HO. unfold init in H. destruct (h_loaded (the_hs p)) eqn:L; [injection H as <- <-; auto|].
  destruct oom; [injection H as <- <-; split; [intros Q; cbn in Q; congruence|discriminate]|].
  destruct (s_service (h_str (the_hs p))) as [n|] eqn:ES; [|injection H as <- <-; split; [intros Q; cbn in Q; congruence|discriminate]].
  destruct (load (h_world (the_hs p)) n) as [[rv0 c]| |] eqn:EL; cbn [bind] in H; try discriminate. injection H as <- <-.
  destruct (Z.eqb_spec rv0 0) as [->|N].
  - assert (C : complete (on_hs (set_loaded true) (mkD (dp_from_module p) (c_conf c) (c_other c) (dp_fchoice p) (dp_former p) (mkW (the_hs p) (repeat INVALID_RETVAL (c_next c)) [] (trace (dp_st p)))))).
    { exists (h_world (the_hs p)), n, c. split; [unfold item, get_item; cbn; rewrite ES; reflexivity|]. split; [exact EL|]. split; reflexivity. }
    split; [intros _; exact C|intros _; exact C].
  - split; [intros Q; cbn in Q; congruence|congruence].
Qed.
Lemma dispatch_audited_tables : forall (W : Type) (call : handler -> Z -> W -> W * Z) e rv oom flags choice (p : dpam W) z (p' : dpam W),
  dispatch_audited call e rv oom flags choice p = Ok (z, p') -> dp_conf p' = dp_conf p /\ dp_other p' = dp_other p.
Proof.
  intros W call e rv oom flags choice p z p' H. unfold dispatch_audited in H. destruct (dispatch call rv oom flags choice p) as [[r q]| |] eqn:E; try discriminate.
  assert (Q : q = p') by (destruct (negb (choice =? 6) || negb (Z.land flags 8192 =? 0) || negb (r =? 0)); congruence). subst q. clear H.
  unfold dispatch in E. destruct (dp_from_module p); [injection E as <- <-; auto|]. destruct (negb (rv =? 0)); [injection E as <- <-; auto|].
  destruct (stack_for p choice); [|injection E as <- <-; auto]. match type of E with (if ?b then _ else _) = _ => destruct b end; [injection E as <- <-; auto|].
  match type of E with match ?f with _ => _ end = _ => destruct f end; try discriminate; injection E as <- <-; auto.
Qed.
Lemma hdispatch_honest : forall e flags choice p r p', hdispatch e flags choice p = Ok (r, p') -> honest p -> honest p'.
Proof.
  intros e flags choice p r p' H HO. unfold Handle_Model.hdispatch in H. destruct (h_module (the_hs p)); [injection H as <- <-; exact HO|].
  destruct (init load (ce_load_oom e) p) as [[rv p0]| |] eqn:EI; cbn [bind] in H; try discriminate. destruct (init_honest _ _ _ _ EI HO) as [H0 _]. cbv zeta in H.
  set (runs := (rv =? 0) && match stack_for p0 choice with None => false | Some _ => true end && ((dp_fchoice p0 =? 0) || (dp_fchoice p0 =? choice))) in *.
  set (p1 := if runs then on_hs (fun s => set_choice choice (set_module true s)) p0 else p0) in *.
  assert (H1 : honest p1) by (subst p1; destruct runs; [eapply step_honest; [exact H0|apply served_same; reflexivity|reflexivity|reflexivity]|exact H0]).
  match type of H with context [dispatch_audited ?c ?e0 rv ?o flags choice ?q] => destruct (dispatch_audited c e0 rv o flags choice q) as [[r1 p2]| |] eqn:ED end; cbn [bind] in H; try discriminate.
  assert (H2 : honest p2).
  { destruct (dispatch_audited_tables _ _ _ _ _ _ _ _ _ _ ED) as [T1 T2]. eapply step_honest; [exact H1| |exact T1|exact T2].
    refine (dispatch_audited_inv _ _ (fun s => served (the_hs p1) s) _ _ _ _ _ _ _ _ _ _ ED); [|apply served_refl].
    intros h fl w S. eapply served_trans; [exact S|apply call_served]. }
  match type of H with (if ?b then _ else _) = _ => destruct b end; [discriminate|]. injection H as <- <-.
  destruct runs; [eapply step_honest; [exact H2|apply served_same; reflexivity|reflexivity|reflexivity]|exact H2].
Qed.
Lemma wiped_served : forall s : hs X, served s (wiped s).
Proof. intros s H. split; [exact H|reflexivity]. Qed.
Lemma on_honest : forall f p, (forall s, served s (f s)) -> honest p -> honest (on_hs f p).
Proof. intros f p S H. eapply step_honest; [exact H|apply S|reflexivity|reflexivity]. Qed.
Lemma await_honest : forall e r p p', lift (await rnd1 rnd2 rnd3 rnd4 rnd5 e r) p = Ok p' -> honest p -> honest p'.
Proof.
  intros e r p p' H HO. unfold lift, await in H.
  match type of H with context [await_timer ?a ?b ?c ?d ?e ?f ?g ?h ?i ?j ?k] => destruct (await_timer a b c d e f g h i j k) as [[w d']| |] end; cbn [bind] in H; try discriminate.
  injection H as <-. eapply step_honest; [exact HO|apply served_same; reflexivity|reflexivity|reflexivity].
Qed.
Lemma act_honest : forall a p o p', ours p -> act a p = Ok (o, p') -> honest p -> honest p'.
Proof.
  intros a p o p' O H HO. destruct a as [ao|m e1 e flags]; cbn [Handle_Model.act] in H.
  - assert (G : forall ao, bind (run_op converse ao (the_hs p)) (fun '(r, s) => Ok (r, on_hs (fun _ => s) p)) = Ok (o, p') -> honest p').
    { intros ao0 E. destruct (run_op converse ao0 (the_hs p)) as [[a s]| |] eqn:ER; cbn [bind] in E; try discriminate. injection E as <- <-.
      apply run_op_served in ER. eapply step_honest; [exact HO|exact ER|reflexivity|reflexivity]. }
    destruct ao; try (eapply G; exact H). discriminate.
  - match type of H with bind ?f _ = _ => destruct f as [[r q]| |] eqn:E end; cbn [bind] in H; try discriminate. injection H as <- <-. pose proof O as [HM HF].
    assert (W : forall q0, honest q0 -> honest (on_hs wiped q0)) by (intros; apply on_honest; [apply wiped_served|assumption]).
    assert (U : forall b q0, honest q0 -> honest (on_hs (set_update b) q0)) by (intros; apply on_honest; [intros; apply served_same; reflexivity|assumption]).
    assert (T : forall d q0, honest q0 -> honest (on_hs (fun s => set_delay (d s) s) q0)) by (intros d q0 Q; apply on_honest; [intros; apply served_same; reflexivity|assumption]).
    destruct m.
    + destruct (authenticate_parts _ _ _ _ _ _ _ _ _ _ _ _ _ O E) as (p1 & p2 & E0 & E1 & E2).
      assert (H1 : honest p1) by (subst p1; destruct (dp_fchoice p =? 0); [apply (T (fun s => start_timer (ce_now e) (h_delay s))), W|]; exact HO).
      pose proof (hdispatch_honest _ _ _ _ _ _ E1 H1) as H2. destruct (r =? 31); [subst; exact H2|]. destruct E2 as (p3 & -> & E2). eapply await_honest; [exact E2|apply W; exact H2].
    + unfold setcred in E. rewrite HM in E. eapply hdispatch_honest; eassumption.
    + unfold acct_mgmt in E. rewrite HM in E. eapply hdispatch_honest; eassumption.
    + unfold open_session in E. rewrite HM in E. eapply hdispatch_honest; eassumption.
    + unfold close_session in E. rewrite HM in E. eapply hdispatch_honest; eassumption.
    + destruct (chauthtok_parts _ _ _ _ _ _ _ _ _ _ _ _ _ _ O E) as [(_ & _ & ->)|(_ & p1 & r1 & p2 & r2 & p3 & E1 & E2 & E3 & -> & E4)]; [exact HO|].
      assert (H1 : honest p1) by (subst p1; destruct (dp_fchoice p =? 0); [apply U, W, (T (fun s => start_timer (ce_now e) (h_delay s)))|]; exact HO).
      assert (H2 : honest p2) by (destruct (h_update (the_hs p1)); [destruct E2 as [_ ->]; exact H1|eapply hdispatch_honest; eassumption]).
      assert (H3 : honest p3) by (destruct (r1 =? 0); [eapply hdispatch_honest; [exact E3|apply U; exact H2]|destruct E3 as [_ ->]; exact H2]).
      destruct (r2 =? 31); [subst; exact H3|]. destruct E4 as (p4 & -> & E4). eapply await_honest; [exact E4|]. apply U, W; exact H3.
    + discriminate.
Qed.

(** C47.  Whatever the application, the modules and the configuration files do: while the handlers count as loaded they
    are the complete result of reading the configuration of the service the handle now names. *)
Theorem loaded_handlers_are_complete : forall oom service user conv w p l o p', start load oom service user conv w = Ok (0, Some p) ->
  acts l p = Ok (o, p') -> h_loaded (the_hs p') = true ->
  exists w' n c, item 1 (the_hs p') = VStr n /\ load w' n = Ok (0, c) /\ dp_conf p' = c_conf c /\ dp_other p' = c_other c.
Proof.
  intros oom service user conv w p l o p' S H. change (honest p'). destruct (started_ours _ _ _ _ _ _ _ S) as [O _].
  assert (H0 : honest p).
  { unfold start in S. match type of S with bind ?f _ = _ => destruct f as [[rv q]| |] eqn:E end; cbn [bind] in S; try discriminate.
    destruct (Z.eqb_spec rv 0) as [->|N]; [|discriminate]. injection S as ->. eapply init_honest; [exact E|]. intros Q. discriminate. }
  clear S. revert p o p' O H0 H. induction l as [|a l IH]; intros p o p' O H0 H; cbn [Handle_Model.acts] in H; [injection H as <- <-; exact H0|].
  destruct (act a p) as [[r p1]| |] eqn:E; cbn [bind] in H; try discriminate. destruct (acts l p1) as [[rs p2]| |] eqn:E2; cbn [bind] in H; try discriminate.
  injection H as <- <-. eapply IH; [eapply act_ours; eassumption|eapply act_honest; eassumption|exact E2].
Qed.

(** A management call finding the handlers not loaded, whose reading of the configuration fails, runs no module, does
    not succeed, and the next call will read again. *)
Definition is_run (e : event) : bool := match e with EvModule _ _ => true | _ => false end.
Lemma hdispatch_unread : forall e flags choice p r p', ours p -> 1 <= choice <= 6 -> hdispatch e flags choice p = Ok (r, p') -> h_loaded (the_hs p) = false ->
  (forall n c, item 1 (the_hs p) = VStr n -> load (h_world (the_hs p)) n = Ok (0, c) -> ce_load_oom e = true) ->
  r <> 0 /\ h_loaded (the_hs p') = false /\ h_log (the_hs p') = h_log (the_hs p) /\ h_world (the_hs p') = h_world (the_hs p) /\ item 1 (the_hs p') = item 1 (the_hs p).
Proof.
  intros e flags choice p r p' [HM HF] HC H HL HB. unfold Handle_Model.hdispatch in H. rewrite HM in H.
  destruct (init load (ce_load_oom e) p) as [[rv p0]| |] eqn:EI; cbn [bind] in H; try discriminate. cbv zeta in H.
  assert (F : rv <> 0 /\ h_loaded (the_hs p0) = false /\ dp_from_module p0 = false /\ the_hs p0 = the_hs p).
  { unfold init in EI. rewrite HL in EI. destruct (ce_load_oom e) eqn:EO; [injection EI as <- <-; cbn; repeat split; auto; discriminate|].
    destruct (s_service (h_str (the_hs p))) as [n|] eqn:ES; [|injection EI as <- <-; cbn; repeat split; auto; discriminate].
    destruct (load (h_world (the_hs p)) n) as [[rv0 c]| |] eqn:EL; cbn [bind] in EI; try discriminate. injection EI as <- <-.
    destruct (Z.eqb_spec rv0 0) as [->|N]; [|cbn; repeat split; auto].
    assert (IT : item 1 (the_hs p) = VStr n) by (unfold item, get_item; cbn; rewrite ES; reflexivity). discriminate (HB n c IT EL). }
  destruct F as (N & L & M & T). apply Z.eqb_neq in N. rewrite N in H. cbn [andb] in H. unfold dispatch_audited, dispatch in H. rewrite M, N in H. cbn [negb] in H.
  rewrite N in H. cbn [negb] in H. rewrite orb_true_r in H. cbn [bind] in H. rewrite T in H. destruct (h_ub (the_hs p)); [discriminate|]. injection H as <- <-. rewrite T in *.
  split; [destruct (auditlog_cases (ce_audit e) choice rv (grant (dp_st p0))) as [-> | ->]; [apply Z.eqb_neq; exact N|discriminate]|]. auto.
Qed.
Theorem unread_configuration_runs_nothing : forall m e1 e flags p r v p', ours p -> h_loaded (the_hs p) = false ->
  (forall n c, item 1 (the_hs p) = VStr n -> load (h_world (the_hs p)) n <> Ok (0, c)) -> 
  act (AMgmt m e1 e flags) p = Ok ((r, v), p') ->
  r <> 0 /\ h_loaded (the_hs p') = false /\ filter is_run (h_log (the_hs p')) = filter is_run (h_log (the_hs p)).
Proof.
  intros m e1 e flags p r v p' O HL HB H. cbn [Handle_Model.act] in H.
  match type of H with bind ?f _ = _ => destruct f as [[r0 q]| |] eqn:E end; cbn [bind] in H; try discriminate. injection H as <- <- <-. pose proof O as [HM HF].
  assert (G : forall e flags choice p0 r p', ours p0 -> 1 <= choice <= 6 -> hdispatch e flags choice p0 = Ok (r, p') -> h_loaded (the_hs p0) = false -> h_world (the_hs p0) = h_world (the_hs p) -> item 1 (the_hs p0) = item 1 (the_hs p) ->
     r <> 0 /\ h_loaded (the_hs p') = false /\ h_log (the_hs p') = h_log (the_hs p0)).
  { intros e0 fl ch p0 r p' O0 HC E0 L0 W0 I0. destruct (hdispatch_unread _ _ _ _ _ _ O0 HC E0 L0) as (A & B & C & _); [|auto].
    intros n c Q1 Q2. rewrite W0 in Q2. rewrite I0 in Q1. destruct (HB n c Q1 Q2). }
  assert (AW : forall e r p p', lift (await rnd1 rnd2 rnd3 rnd4 rnd5 e r) p = Ok p' -> h_loaded (the_hs p') = h_loaded (the_hs p) /\ filter is_run (h_log (the_hs p')) = filter is_run (h_log (the_hs p))).
  { clear. intros e r p p' H. unfold lift, await in H.
    match type of H with context [await_timer ?a ?b ?c ?d ?e ?f ?g ?h ?i ?j ?k] => destruct (await_timer a b c d e f g h i j k) as [[w d']| |] end; cbn [bind] in H; try discriminate. injection H as <-. split; reflexivity. }
  destruct m.
  - destruct (authenticate_parts _ _ _ _ _ _ _ _ _ _ _ _ _ O E) as (p1 & p2 & E0 & E1 & E2).
    destruct (G _ _ 1 p1 _ _ ltac:(subst p1; destruct (dp_fchoice p =? 0); exact O) ltac:(lia) E1 ltac:(subst p1; destruct (dp_fchoice p =? 0); exact HL) ltac:(subst p1; destruct (dp_fchoice p =? 0); reflexivity) ltac:(subst p1; destruct (dp_fchoice p =? 0); reflexivity)) as (A & B & C).
    assert (L1 : h_log (the_hs p1) = h_log (the_hs p)) by (subst p1; destruct (dp_fchoice p =? 0); reflexivity).
    split; [exact A|]. destruct (r0 =? 31); [subst q; split; [exact B|congruence]|]. destruct E2 as (p3 & -> & E2). destruct (AW _ _ _ _ E2) as [A1 A2]. rewrite A1, A2. split; [exact B|]. cbn [the_hs on_hs dp_st ww wiped set_strs h_log]. unfold the_hs in *. congruence.
  - unfold setcred in E. rewrite HM in E. destruct (G _ _ 2 _ _ _ O ltac:(lia) E HL eq_refl eq_refl) as (A & B & C). rewrite C. auto.
  - unfold acct_mgmt in E. rewrite HM in E. destruct (G _ _ 3 _ _ _ O ltac:(lia) E HL eq_refl eq_refl) as (A & B & C). rewrite C. auto.
  - unfold open_session in E. rewrite HM in E. destruct (G _ _ 4 _ _ _ O ltac:(lia) E HL eq_refl eq_refl) as (A & B & C). rewrite C. auto.
  - unfold close_session in E. rewrite HM in E. destruct (G _ _ 5 _ _ _ O ltac:(lia) E HL eq_refl eq_refl) as (A & B & C). rewrite C. auto.
  - destruct (chauthtok_parts _ _ _ _ _ _ _ _ _ _ _ _ _ _ O E) as [(_ & -> & ->)|(_ & p1 & r1 & p2 & r2 & p3 & E1 & E2 & E3 & -> & E4)]; [split; [discriminate|auto]|].
    assert (O1 : ours p1) by (subst p1; destruct (dp_fchoice p =? 0); exact O).
    assert (S1 : h_loaded (the_hs p1) = false /\ h_world (the_hs p1) = h_world (the_hs p) /\ item 1 (the_hs p1) = item 1 (the_hs p) /\ h_log (the_hs p1) = h_log (the_hs p)).
    { subst p1. destruct (dp_fchoice p =? 0); auto. }
    destruct S1 as (L1 & W1 & I1 & G1).
    assert (F : r2 <> 0 /\ h_loaded (the_hs p3) = false /\ h_log (the_hs p3) = h_log (the_hs p)).
    { destruct (h_update (the_hs p1)).
      - destruct E2 as [-> ->]. cbn [Z.eqb] in E3. destruct (G _ _ 6 _ _ _ (set_update_ours true p1 O1) ltac:(lia) E3 L1 W1 I1) as (A & B & C). split; [exact A|]. split; [exact B|]. rewrite C. exact G1.
      - destruct (G _ _ 6 _ _ _ O1 ltac:(lia) E2 L1 W1 I1) as (A & B & C). apply Z.eqb_neq in A. rewrite A in E3. destruct E3 as [-> ->]. apply Z.eqb_neq in A. split; [exact A|]. split; [exact B|congruence]. }
    destruct F as (F1 & F2 & F3). split; [exact F1|]. destruct (r2 =? 31); [subst q; split; [exact F2|congruence]|]. destruct E4 as (p4 & -> & E4). destruct (AW _ _ _ _ E4) as [A1 A2]. rewrite A1, A2. split; [exact F2|].
    cbn [the_hs on_hs dp_st ww wiped set_strs set_update h_log]. unfold the_hs in *. congruence.
  - discriminate.
Qed.
End Loaded.

(** A service whose configuration cannot be read: refused twice, read again once the name is mended. *)
Example unread_example :
  let l := [AOp (OSet 1 (AStr (lit "bad")) false false); mg MAuthenticate; mg MAuthenticate; AOp (OSet 1 (AStr (lit "login")) false false); mg MAuthenticate] in
  answers_of (demo l (demo_start [0])) = Some [0; 26; 26; 0; 0] /\
  h_loaded (the_hs (handle_of (demo (firstn 3 l) (demo_start [0])))) = false /\ ours (handle_of (demo (firstn 3 l) (demo_start [0]))) /\
  h_loaded (the_hs (handle_of (demo l (demo_start [0])))) = true /\
  item 1 (the_hs (handle_of (demo l (demo_start [0])))) = VStr (lit "login").
Proof. cbv zeta. split; [vm_compute; reflexivity|]. split; [vm_compute; reflexivity|]. split; [split; vm_compute; reflexivity|]. split; vm_compute; reflexivity. Qed.

Print Assumptions loaded_handlers_are_complete.
Print Assumptions unread_configuration_runs_nothing.
