(** C23, C24, C27, C28, C41: whole handles with arbitrary modules, applications and conversations. *)
From Coq Require Import String Ascii List Arith ZArith QArith Lia Bool.
From Verif Require Import Base Dispatch_Model Delay_Model Item_Model Conf_Model Handle_Model Item_Props Handle_Proofs.
Import ListNotations.
Local Open Scope Z_scope.

(** ** Passwords are wiped *)
Section Wipe.
Context {X : Type}.
Implicit Types s : hs X.
(** The handle without passwords. *)
Definition wiped (s : hs X) : hs X :=
  let t := h_str s in
  set_strs (mkS (s_service t) (s_user t) (s_tty t) (s_rhost t) None None (s_ruser t) (s_prompt t) (s_xdisplay t) (s_atype t)) s.
Lemma sanitize_wipes : forall s, sanitize s = Ok (wiped s).
Proof.
  intros s. destruct s as [m t c f x fu w sv u l a ch v d ub lg wo]. destruct t as [t1 t2 t3 t4 t5 t6 t7 t8 t9 t10].
  unfold sanitize, wiped. cbn. destruct t5; cbn; destruct t6; reflexivity.
Qed.
End Wipe.

(** ** Applications and passwords: noninterference *)
Section Blind.
Context {X : Type}.
Implicit Types s : hs X.
Definition wipes {A} (r : res (A * hs X)) : res (A * hs X) :=
  match r with Ok (a, s) => Ok (a, wiped s) | UB => UB | OutOfFuel => OutOfFuel end.
Definition wipe_strs (t : strs) : strs := mkS (s_service t) (s_user t) (s_tty t) (s_rhost t) None None (s_ruser t) (s_prompt t) (s_xdisplay t) (s_atype t).
Lemma wiped_strs : forall s, wiped s = set_strs (wipe_strs (h_str s)) s.
Proof. reflexivity. Qed.
Lemma get_wipe : forall ty t, ty <> 6 -> ty <> 7 -> get_str ty (wipe_strs t) = get_str ty t.
Proof.
  intros ty t N6 N7. unfold get_str. rewrite (proj2 (Z.eqb_neq ty 6) N6), (proj2 (Z.eqb_neq ty 7) N7). cbn. reflexivity.
Qed.
Lemma put_wipe : forall ty v t, ty <> 6 -> ty <> 7 -> put_str ty v (wipe_strs t) = wipe_strs (put_str ty v t).
Proof.
  intros ty v t N6 N7. unfold put_str, wipe_strs. rewrite (proj2 (Z.eqb_neq ty 6) N6), (proj2 (Z.eqb_neq ty 7) N7). cbn. reflexivity.
Qed.
Lemma try_set_wipe : forall oom ty a t, ty <> 6 -> ty <> 7 ->
  try_set oom ty a (wipe_strs t) = match try_set oom ty a t with Ok r => Ok (option_map wipe_strs r) | UB => UB | OutOfFuel => OutOfFuel end.
Proof.
  intros oom ty a t N6 N7. unfold try_set. rewrite get_wipe by assumption. destruct (get_str ty t) as [cur|]; [|reflexivity]. destruct (pointee a cur) as [v|]; [|reflexivity].
  destruct (same_pointer a cur); [reflexivity|]. destruct v; [destruct oom|]; rewrite ?put_wipe by assumption; reflexivity.
Qed.
Lemma get_item_blind : forall ty s, h_module s = false -> get_item ty (wiped s) = get_item ty s.
Proof.
  intros ty s M. unfold get_item. change (h_module (wiped s)) with (h_module s). rewrite M. destruct ((ty =? 6) || (ty =? 7)) eqn:E; [reflexivity|].
  apply orb_false_elim in E. destruct E as [E6 E7]. apply Z.eqb_neq in E6. apply Z.eqb_neq in E7.
  change (h_str (wiped s)) with (wipe_strs (h_str s)). rewrite get_wipe by assumption. reflexivity.
Qed.
Lemma set_item_blind : forall oom oom2 ty a s, h_module s = false -> set_item oom oom2 ty a (wiped s) = wipes (set_item oom oom2 ty a s).
Proof.
  intros oom oom2 ty a s M. unfold set_item. change (h_module (wiped s)) with (h_module s). rewrite M. change (h_str (wiped s)) with (wipe_strs (h_str s)).
  destruct (Z.eqb_spec ty 1) as [->|N1].
  { assert (T : forall a s, bind (try_set oom 1 a (h_str (set_loaded false (wiped s)))) (fun r => match r with
        | None => Ok (5, set_loaded false (wiped s))
        | Some t => match s_service t with None => UB | Some n => Ok (0, set_strs (put_str 1 (Some (map tolower n)) t) (set_loaded false (wiped s))) end end) =
      wipes (bind (try_set oom 1 a (h_str (set_loaded false s))) (fun r => match r with
        | None => Ok (5, set_loaded false s)
        | Some t => match s_service t with None => UB | Some n => Ok (0, set_strs (put_str 1 (Some (map tolower n)) t) (set_loaded false s)) end end))).
    { clear. intros a s. change (h_str (set_loaded false (wiped s))) with (wipe_strs (h_str s)). change (h_str (set_loaded false s)) with (h_str s).
      rewrite try_set_wipe by discriminate. destruct (try_set oom 1 a (h_str s)) as [[t|]| |]; try reflexivity. cbn [bind option_map].
      change (s_service (wipe_strs t)) with (s_service t). destruct (s_service t); [|reflexivity]. cbn [wipes]. rewrite put_wipe by discriminate. reflexivity. }
    destruct a; try apply T; [reflexivity|]. change (s_service (wipe_strs (h_str s))) with (s_service (h_str s)). destruct (s_service (h_str s)); reflexivity. }
  destruct ((ty =? 2) || (ty =? 9)) eqn:E29.
  { rewrite try_set_wipe by (intros ->; discriminate). destruct (try_set oom ty a (h_str s)) as [[t|]| |]; reflexivity. }
  destruct ((ty =? 6) || (ty =? 7)) eqn:E67; [reflexivity|].
  apply orb_false_elim in E67. destruct E67 as [E6 E7]. apply Z.eqb_neq in E6. apply Z.eqb_neq in E7.
  change (h_conv (wiped s)) with (h_conv s). change (h_fn (wiped s)) with (h_fn s). change (h_xauth (wiped s)) with (h_xauth s).
  repeat first [ rewrite try_set_wipe by assumption
    | match goal with
      | |- ?l = wipes ?l' => first [reflexivity
        | match l' with context [if ?b then _ else _] => destruct b end
        | match l' with context [match ?b with ANull => _ | _ => _ end] => destruct b end
        | match l' with context [bind ?b _] => destruct b; cbn [bind] end
        | match l' with context [match ?b with Some _ => _ | None => _ end] => destruct b end ]
      end ].
Qed.

Variable converse : nat -> X -> Z -> cstr -> X * (Z * option (option cstr)).
Lemma prompt_blind : forall oom style text s, prompt converse oom style text (wiped s) =
  let '(rv, r, s) := prompt converse oom style text s in (rv, r, wiped s).
Proof.
  intros oom style text s. unfold prompt. change (h_conv (wiped s)) with (h_conv s). destruct (h_conv s) as [c|]; [|reflexivity]. destruct (cv_fn c) as [fn|]; [|reflexivity].
  destruct oom; [reflexivity|]. unfold ask. change (h_world (wiped s)) with (h_world s). destruct (converse fn (h_world s) style text) as [w [rv resp]]. reflexivity.
Qed.
Lemma get_user_blind : forall oom1 oom2 p s, h_module s = false -> get_user converse oom1 oom2 p (wiped s) = wipes (get_user converse oom1 oom2 p s).
Proof.
  intros oom1 oom2 p s M. unfold get_user. change (h_conv (wiped s)) with (h_conv s). destruct (h_conv s) as [c|]; [|reflexivity].
  change (s_user (h_str (wiped s))) with (s_user (h_str s)). destruct (s_user (h_str s)); [reflexivity|]. change (h_fail_user (wiped s)) with (h_fail_user s).
  destruct (negb (h_fail_user s =? 0)); [reflexivity|]. cbv zeta. change (s_prompt (h_str (wiped s))) with (s_prompt (h_str s)).
  set (use := match p with Some p => p | None => match s_prompt (h_str s) with Some p => p | None => lit "login:" end end).
  assert (G : forall s0, h_module s0 = false ->
     match cv_fn c with
        | None => UB
        | Some fn =>
          let '(rv, resp, s) := ask converse fn 2 use (wiped s0) in
          if (if (rv =? 0) || (rv =? 5) || (rv =? 30) || (rv =? 19) then rv else 19) =? 30 then Ok ((if (rv =? 0) || (rv =? 5) || (rv =? 30) || (rv =? 19) then rv else 19), None, set_want true (if oom1 then None else Some use) s)
          else if (if (rv =? 0) || (rv =? 5) || (rv =? 30) || (rv =? 19) then rv else 19) =? 0 then
            match resp with
            | Some (Some r) => bind (set_item oom2 false 2 (AStr r) s) (fun '(rv, s) => Ok (rv, s_user (h_str s), s))
            | _ => Ok (19, None, set_fail_user 19 s)
            end
          else Ok ((if (rv =? 0) || (rv =? 5) || (rv =? 30) || (rv =? 19) then rv else 19), None, set_fail_user (if (rv =? 0) || (rv =? 5) || (rv =? 30) || (rv =? 19) then rv else 19) s)
        end =
     wipes (match cv_fn c with
        | None => UB
        | Some fn =>
          let '(rv, resp, s) := ask converse fn 2 use s0 in
          if (if (rv =? 0) || (rv =? 5) || (rv =? 30) || (rv =? 19) then rv else 19) =? 30 then Ok ((if (rv =? 0) || (rv =? 5) || (rv =? 30) || (rv =? 19) then rv else 19), None, set_want true (if oom1 then None else Some use) s)
          else if (if (rv =? 0) || (rv =? 5) || (rv =? 30) || (rv =? 19) then rv else 19) =? 0 then
            match resp with
            | Some (Some r) => bind (set_item oom2 false 2 (AStr r) s) (fun '(rv, s) => Ok (rv, s_user (h_str s), s))
            | _ => Ok (19, None, set_fail_user 19 s)
            end
          else Ok ((if (rv =? 0) || (rv =? 5) || (rv =? 30) || (rv =? 19) then rv else 19), None, set_fail_user (if (rv =? 0) || (rv =? 5) || (rv =? 30) || (rv =? 19) then rv else 19) s)
        end)).
  { intros s0 M0. destruct (cv_fn c) as [fn|]; [|reflexivity]. unfold ask. change (h_world (wiped s0)) with (h_world s0).
    destruct (converse fn (h_world s0) 2 use) as [w [r0 resp]].
    change (set_world w (set_log (EvConv fn 2 use :: h_log (wiped s0)) (wiped s0))) with (wiped (set_world w (set_log (EvConv fn 2 use :: h_log s0) s0))).
    set (s1 := set_world w (set_log (EvConv fn 2 use :: h_log s0) s0)).
    match goal with |- (if ?b then _ else _) = _ => destruct b; [reflexivity|] end. match goal with |- (if ?b then _ else _) = _ => destruct b; [|reflexivity] end.
    destruct resp as [[r|]|]; [|reflexivity|reflexivity]. rewrite set_item_blind by exact M0. destruct (set_item oom2 false 2 (AStr r) s1) as [[rv s2]| |]; reflexivity. }
  change (h_want (wiped s)) with (h_want s). change (h_saved (wiped s)) with (h_saved s). destruct (h_want s); [|apply G; exact M].
  destruct (h_saved s) as [q|]; [|reflexivity]. destruct (negb (streq q use)); [reflexivity|]. exact (G (set_want false None s) M).
Qed.

Lemma get_authtok_blind : forall fail ty pr nv s, h_module s = false -> get_authtok converse fail ty pr nv (wiped s) = wipes (get_authtok converse fail ty pr nv s).
Proof.
  intros fail ty pr nv s M. unfold get_authtok. cbv zeta. change (h_choice (wiped s)) with (h_choice s). change (h_args (wiped s)) with (h_args s).
  set (chpass := if (h_choice s =? 6) && (ty =? 6) then if nv then 1%nat else 2%nat else 0%nat).
  match goal with |- bind ?f1 ?g1 = wipes (bind ?f2 ?g2) => assert (E1 : f1 = wipes f2);
    [|assert (E2 : forall a s1, h_module s1 = false -> g1 (a, wiped s1) = wipes (g2 (a, s1)));
      [|assert (E3 : forall a s1, f2 = Ok (a, s1) -> h_module s1 = false);
        [|rewrite E1; destruct f2 as [[a s1]| |]; [exact (E2 a s1 (E3 a s1 eq_refl))|reflexivity|reflexivity]]]] end.
  - destruct (h_choice s =? 6); [|reflexivity]. destruct (get_option (h_args s) (lit "authtok_type")) as [t|].
    + rewrite set_item_blind by exact M. destruct (set_item (fail 5%nat) false 13 (AStr t) s) as [[rv s2]| |]; reflexivity.
    + rewrite get_item_blind by exact M. destruct (get_item 13 s) as [z [| | | | ]]; destruct z; reflexivity.
  - intros at0 s1 M1. cbv beta iota. rewrite get_item_blind by exact M1. destruct (get_item ty s1) as [rv prev].
    destruct ((rv =? 0) && negb (is_null prev)); [reflexivity|]. change (h_args (wiped s1)) with (h_args s1).
    match goal with |- (if ?b then _ else _) = _ => destruct b; [destruct (is_null prev); reflexivity|] end.
    assert (TW : forall t1 t2 s0,
      (let '(rv, r0, s) := prompt converse (fail 1%nat) 1 t1 (wiped s0) in
        match r0 with
        | Some _ => if (rv =? 0) && (1 <? chpass)%nat then let '(rv, r1, s) := prompt converse (fail 2%nat) 1 t2 s in (rv, r0, r1, s) else (rv, r0, None, s)
        | None => (rv, r0, None, s)
        end) =
      (let '(rv, r0, r1, s) := (let '(rv, r0, s) := prompt converse (fail 1%nat) 1 t1 s0 in
        match r0 with
        | Some _ => if (rv =? 0) && (1 <? chpass)%nat then let '(rv, r1, s) := prompt converse (fail 2%nat) 1 t2 s in (rv, r0, r1, s) else (rv, r0, None, s)
        | None => (rv, r0, None, s)
        end) in (rv, r0, r1, wiped s))).
    { intros t1 t2 s0. rewrite prompt_blind. destruct (prompt converse (fail 1%nat) 1 t1 s0) as [[rv1 r0] s2]. destruct r0; [|reflexivity]. destruct ((rv1 =? 0) && (1 <? chpass)%nat); [|reflexivity].
      rewrite prompt_blind. destruct (prompt converse (fail 2%nat) 1 t2 s2) as [[rv2 r1] s3]. reflexivity. }
    assert (TM : forall t1 t2 s0, h_module s0 = false -> h_module (snd 
      (let '(rv, r0, s) := prompt converse (fail 1%nat) 1 t1 s0 in
        match r0 with
        | Some _ => if (rv =? 0) && (1 <? chpass)%nat then let '(rv, r1, s) := prompt converse (fail 2%nat) 1 t2 s in (rv, r0, r1, s) else (rv, r0, None, s)
        | None => (rv, r0, None, s)
        end)) = false).
    { intros t1 t2 s0 M0. destruct (prompt_kept converse (fail 1%nat) 1 t1 s0) as [(K & _) _]. destruct (prompt converse (fail 1%nat) 1 t1 s0) as [[rv1 r0] s2]. cbn [snd] in K. destruct r0; [|cbn; congruence].
      destruct ((rv1 =? 0) && (1 <? chpass)%nat); [|cbn; congruence].
      destruct (prompt_kept converse (fail 2%nat) 1 t2 s2) as [(K2 & _) _]. destruct (prompt converse (fail 2%nat) 1 t2 s2) as [[rv2 r1] s3]. cbn [snd] in *. congruence. }
    match goal with |- (match ?f1 with (_, _) => _ end) = wipes (match ?f2 with (_, _) => _ end) =>
      assert (EF : f1 = (let '(rv, r0, r1, s) := f2 in (rv, r0, r1, wiped s)) /\ h_module (snd f2) = false) end.
    { destruct pr as [p|]; [split; [apply TW|apply TM; exact M1]|]. destruct (0 <? chpass)%nat.
      - split; [exact (TW _ _ (set_verified false s1))|apply TM; exact M1].
      - destruct (ty =? 7); (split; [apply TW|apply TM; exact M1]). }
    destruct EF as [EF EM]. rewrite EF. clear EF.
    match type of EM with h_module (snd ?f2) = false => destruct f2 as [[[rv3 r0] r1] s3] end. cbn [snd] in EM. cbv iota beta.
    assert (PE : forall A (e : A) t, Ok (e, if (0 <? chpass)%nat then snd (prompt converse (fail 4%nat) 3 t (wiped s3)) else wiped s3) = wipes (Ok (e, if (0 <? chpass)%nat then snd (prompt converse (fail 4%nat) 3 t s3) else s3))).
    { intros A e t. destruct (0 <? chpass)%nat; [|reflexivity]. rewrite prompt_blind. destruct (prompt converse (fail 4%nat) 3 t s3) as [[a b] s4]. reflexivity. }
    destruct r0 as [t0|]; [|apply PE]. destruct (negb (rv3 =? 0)); [apply PE|].
    assert (ST : bind (set_item (fail 3%nat) false ty (AStr t0) (wiped s3)) (fun '(rv, s) =>
        if negb (rv =? 0) then Ok (rv, None, s)
        else let (rv, v) := get_item ty (if (1 <? chpass)%nat then set_verified true s else s) in Ok (rv, Some v, if (1 <? chpass)%nat then set_verified true s else s)) =
      wipes (bind (set_item (fail 3%nat) false ty (AStr t0) s3) (fun '(rv, s) =>
        if negb (rv =? 0) then Ok (rv, None, s)
        else let (rv, v) := get_item ty (if (1 <? chpass)%nat then set_verified true s else s) in Ok (rv, Some v, if (1 <? chpass)%nat then set_verified true s else s)))).
    { rewrite set_item_blind by exact EM. destruct (set_item (fail 3%nat) false ty (AStr t0) s3) as [[rv4 s4]| |] eqn:E4; [|reflexivity|reflexivity]. cbn [wipes bind].
      destruct (negb (rv4 =? 0)); [reflexivity|]. destruct (set_item_kept _ _ _ _ _ _ _ E4) as [(K & _) _].
      replace (if (1 <? chpass)%nat then set_verified true (wiped s4) else wiped s4) with (wiped (if (1 <? chpass)%nat then set_verified true s4 else s4)) by (destruct (1 <? chpass)%nat; reflexivity).
      rewrite get_item_blind by (destruct (1 <? chpass)%nat; cbn; congruence). destruct (get_item ty (if (1 <? chpass)%nat then set_verified true s4 else s4)). reflexivity. }
    destruct (1 <? chpass)%nat; [|exact ST]. destruct r1 as [t1|]; [|apply PE]. destruct (negb (streq t0 t1)); [apply PE|exact ST].
  - intros a s1 E. destruct (h_choice s =? 6); [|injection E as _ <-; exact M]. destruct (get_option (h_args s) (lit "authtok_type")) as [t|].
    + destruct (set_item (fail 5%nat) false 13 (AStr t) s) as [[rv s2]| |] eqn:E5; cbn [bind] in E; try discriminate. injection E as _ <-. destruct (set_item_kept _ _ _ _ _ _ _ E5) as [(K & _) _]. congruence.
    + injection E as _ <-. exact M.
Qed.
Lemma get_authtok_verify_blind : forall fail given pr s, h_module s = false -> get_authtok_verify converse fail given pr (wiped s) = wipes (get_authtok_verify converse fail given pr s).
Proof.
  intros fail given pr s M. unfold get_authtok_verify. cbv zeta. change (h_choice (wiped s)) with (h_choice s). change (h_verified (wiped s)) with (h_verified s).
  destruct (negb (h_choice s =? 6)); [reflexivity|]. destruct (h_verified s); [rewrite get_item_blind by exact M; destruct (get_item 6 s); reflexivity|].
  rewrite (get_item_blind 13) by exact M. match goal with |- context [prompt converse (fail 1%nat) 1 ?t s] => set (text := t) end.
  rewrite prompt_blind. destruct (prompt_kept converse (fail 1%nat) 1 text s) as [(K & _) _]. destruct (prompt converse (fail 1%nat) 1 text s) as [[rv1 r] s3]. cbn [snd] in K. cbv iota beta.
  assert (M3 : h_module s3 = false) by congruence. clear K.
  assert (DR : forall (e : Z) t, bind (bind (set_item false false 6 ANull (wiped s3)) (fun '(_, s) => Ok (snd (prompt converse (fail 4%nat) 3 t s)))) (fun s => Ok (e, @None ival, s)) =
    wipes (bind (bind (set_item false false 6 ANull s3) (fun '(_, s) => Ok (snd (prompt converse (fail 4%nat) 3 t s)))) (fun s => Ok (e, @None ival, s)))).
  { intros e t. rewrite set_item_blind by exact M3. destruct (set_item false false 6 ANull s3) as [[r0 s4]| |]; [|reflexivity|reflexivity]. cbn [wipes bind]. rewrite prompt_blind. destruct (prompt converse (fail 4%nat) 3 t s4) as [[x y] z]. reflexivity. }
  destruct r as [t|]; [|apply DR]. destruct (rv1 =? 0); [|apply DR]. destruct (negb (streq given t)); [apply DR|].
  rewrite set_item_blind by exact M3. destruct (set_item (fail 3%nat) false 6 (AStr t) s3) as [[rv4 s4]| |] eqn:E4; [|reflexivity|reflexivity]. cbn [wipes bind].
  destruct (negb (rv4 =? 0)); [reflexivity|]. destruct (set_item_kept _ _ _ _ _ _ _ E4) as [(K & _) _].
  change (set_verified true (wiped s4)) with (wiped (set_verified true s4)). rewrite get_item_blind by (cbn; congruence). destruct (get_item 6 (set_verified true s4)). reflexivity.
Qed.

(** C23: what an application learns from any call, and does by it, is the same whether or not the handle holds
    passwords. *)
Theorem application_blind_to_passwords : forall o s, h_module s = false -> run_op converse o (wiped s) = wipes (run_op converse o s).
Proof.
  intros o s M. destruct o as [ty ar o1 o2|ty|pr o1 o2|ty pr nv f|g pr f|st t o1|us|m fl|f]; cbn [run_op].
  - rewrite set_item_blind by exact M. destruct (set_item o1 o2 ty ar s) as [[rv s1]| |]; reflexivity.
  - rewrite get_item_blind by exact M. destruct (get_item ty s). reflexivity.
  - rewrite get_user_blind by exact M. destruct (get_user converse o1 o2 pr s) as [[[rv u] s1]| |]; reflexivity.
  - rewrite get_authtok_blind by exact M. destruct (get_authtok converse f ty pr nv s) as [[[rv u] s1]| |]; reflexivity.
  - rewrite get_authtok_verify_blind by exact M. destruct (get_authtok_verify converse f g pr s) as [[[rv u] s1]| |]; reflexivity.
  - rewrite prompt_blind. destruct (prompt converse o1 st t s) as [[rv r] s1]. reflexivity.
  - change (h_delay (wiped s)) with (h_delay s). destruct (pam_fail_delay us (h_delay s)). reflexivity.
  - change (h_module (wiped s)) with (h_module s). rewrite M. reflexivity.
  - change (h_world (wiped s)) with (h_world s). destruct (f (h_world s)). reflexivity.
Qed.
End Blind.

Section Handle.
Context {X : Type}.
Variable converse : nat -> X -> Z -> cstr -> X * (Z * option (option cstr)).
Variable code : nat -> Z -> list cstr -> mprog X.
Variable load : X -> cstr -> res (Z * cst).
Variables rnd1 rnd2 rnd3 rnd4 rnd5 : Q -> Q.
Implicit Types p : dpam (hs X).
Notation authenticate := (authenticate converse code load rnd1 rnd2 rnd3 rnd4 rnd5).
Notation chauthtok := (chauthtok converse code load rnd1 rnd2 rnd3 rnd4 rnd5).
Notation hdispatch := (hdispatch converse code load).
Notation act := (act converse code load rnd1 rnd2 rnd3 rnd4 rnd5).
Notation acts := (acts converse code load rnd1 rnd2 rnd3 rnd4 rnd5).
Notation await := (await rnd1 rnd2 rnd3 rnd4 rnd5).

(** Control is with the application. *)
Definition ours (p : dpam (hs X)) : Prop := h_module (the_hs p) = false /\ dp_from_module p = false.
(** A step that walks over no stack. *)
Definition calm (p p' : dpam (hs X)) : Prop :=
  kept (the_hs p) (the_hs p') /\ dp_from_module p' = dp_from_module p /\ dp_fchoice p' = dp_fchoice p.
Lemma calm_refl : forall p, calm p p.
Proof. intros. repeat split. Qed.
Lemma calm_trans : forall p1 p2 p3, calm p1 p2 -> calm p2 p3 -> calm p1 p3.
Proof. intros p1 p2 p3 (A & B & C) (A' & B' & C'). split; [eapply kept_trans; eassumption|split; congruence]. Qed.
Lemma calm_ours : forall p p', calm p p' -> ours p -> ours p'.
Proof. intros p p' ((A & _) & B & _) [O1 O2]. split; congruence. Qed.
Lemma calm_on : forall f p, kept (the_hs p) (f (the_hs p)) -> calm p (on_hs f p).
Proof. intros f p K. split; [exact K|split; reflexivity]. Qed.

Lemma lift_sanitize : forall p, lift sanitize p = Ok (on_hs wiped p).
Proof. intros p. unfold lift. rewrite sanitize_wipes. reflexivity. Qed.
Lemma wiped_calm : forall p, calm p (on_hs wiped p).
Proof. intros. apply calm_on. repeat split. Qed.
Lemma await_calm : forall e r p p', lift (await e r) p = Ok p' ->
  calm p p' /\ h_str (the_hs p') = h_str (the_hs p) /\ h_loaded (the_hs p') = h_loaded (the_hs p).
Proof.
  intros e r p p' H. unfold lift, Handle_Model.await in H. 
  match type of H with context [await_timer ?a ?b ?c ?d ?e ?f ?g ?h ?i ?j ?k] => destruct (await_timer a b c d e f g h i j k) as [[w d']| |] end; cbn [bind] in H; try discriminate.
  injection H as <-. repeat split.
Qed.

(** ** The parts of the management calls *)
Lemma authenticate_parts : forall e flags p r p', ours p -> authenticate e flags p = Ok (r, p') ->
  exists p1 p2, p1 = (if dp_fchoice p =? 0 then on_hs (fun s => set_delay (start_timer (ce_now e) (h_delay s)) s) (on_hs wiped p) else p) /\
    hdispatch e flags 1 p1 = Ok (r, p2) /\
    if r =? 31 then p' = p2 else exists p3, p3 = on_hs wiped p2 /\ lift (await e r) p3 = Ok p'.
Proof.
  intros e flags p r p' [HM HF] H. unfold Handle_Model.authenticate in H. rewrite HM in H. rewrite lift_sanitize in H. cbn [bind] in H.
  eexists. match type of H with bind ?f _ = _ => match f with (if ?b then Ok ?x else Ok ?y) => replace f with (Ok (if b then x else y)) in H by (destruct b; reflexivity) end end.
  cbn [bind] in H. match type of H with bind ?f _ = _ => destruct f as [[r1 p2]| |] eqn:E end; cbn [bind] in H; try discriminate.
  exists p2. split; [reflexivity|].
  destruct (Z.eqb_spec r1 31) as [->|N]; cbn [negb] in H.
  - injection H as <- <-. split; [exact E|reflexivity].
  - rewrite lift_sanitize in H. cbn [bind] in H. destruct (lift (await e r1) (on_hs wiped p2)) as [p4| |] eqn:EA; cbn [bind] in H; try discriminate.
    injection H as <- <-. split; [exact E|]. rewrite (proj2 (Z.eqb_neq r1 31) N). eexists. split; [reflexivity|exact EA].
Qed.

Lemma chauthtok_parts : forall e1 e flags p r p', ours p -> chauthtok e1 e flags p = Ok (r, p') ->
  (Z.land flags (Z.lor PRELIM UPDATE) <> 0 /\ r = 4 /\ p' = p) \/
  (Z.land flags (Z.lor PRELIM UPDATE) = 0 /\
   exists p1 r1 p2 r2 p3,
    p1 = (if dp_fchoice p =? 0 then on_hs (set_update false) (on_hs wiped (on_hs (fun s => set_delay (start_timer (ce_now e) (h_delay s)) s) p)) else p) /\
    (if h_update (the_hs p1) then r1 = 0 /\ p2 = p1 else hdispatch e1 (Z.lor flags PRELIM) 6 p1 = Ok (r1, p2)) /\
    (if r1 =? 0 then hdispatch e (Z.lor flags UPDATE) 6 (on_hs (set_update true) p2) = Ok (r2, p3) else r2 = r1 /\ p3 = p2) /\
    r = r2 /\ if r =? 31 then p' = p3 else exists p4, p4 = on_hs (set_update false) (on_hs wiped p3) /\ lift (await e r) p4 = Ok p').
Proof.
  intros e1 e flags p r p' [HM HF] H. unfold Handle_Model.chauthtok in H. rewrite HM in H. destruct (Z.eqb_spec (Z.land flags (Z.lor PRELIM UPDATE)) 0) as [Z0|NZ]; cbn [negb] in H.
  2:{ injection H as <- <-. auto. }
  right. split; [exact Z0|]. rewrite lift_sanitize in H. cbn [bind] in H. eexists.
  match type of H with bind ?f _ = _ => match f with (if ?b then Ok ?x else Ok ?y) => replace f with (Ok (if b then x else y)) in H by (destruct b; reflexivity) end end.
  cbn [bind] in H.
  match type of H with bind ?f _ = _ => destruct f as [[r1 p2]| |] eqn:E1 end; cbn [bind] in H; try discriminate.
  match type of H with bind ?f _ = _ => destruct f as [[r2 p3]| |] eqn:E2 end; cbn [bind] in H; try discriminate.
  exists r1, p2, r2, p3. split; [reflexivity|]. split; [match type of E1 with (if ?b then _ else _) = _ => destruct b end; [injection E1 as <- <-; auto|exact E1]|].
  split; [destruct (r1 =? 0); [exact E2|injection E2 as <- <-; auto]|].
  destruct (Z.eqb_spec r2 31) as [->|N]; cbn [negb] in H.
  - injection H as <- <-. split; reflexivity.
  - rewrite lift_sanitize in H. cbn [bind] in H. match type of H with bind ?f _ = _ => destruct f as [p4| |] eqn:EA end; cbn [bind] in H; try discriminate.
    injection H as <- <-. split; [reflexivity|]. rewrite (proj2 (Z.eqb_neq r2 31) N). eexists. split; [reflexivity|exact EA].
Qed.

(** ** C28: control is back with the application after every call *)
Lemma hdispatch_ours : forall e flags choice p r p', ours p -> 1 <= choice <= 6 -> hdispatch e flags choice p = Ok (r, p') -> ours p'.
Proof. intros e flags choice p r p' [HM HF] HC H. destruct (hdispatch_cases _ _ _ _ _ _ _ _ _ H HM HF HC) as (A & B & _). split; assumption. Qed.
Lemma set_update_ours : forall b p, ours p -> ours (on_hs (set_update b) p).
Proof. intros b p O. exact O. Qed.

Lemma act_ours : forall a p o p', ours p -> act a p = Ok (o, p') -> ours p'.
Proof.
  intros a p o p' O H. destruct a as [ao|m e1 e flags]; cbn [Handle_Model.act] in H.
  - assert (G : forall ao, bind (run_op converse ao (the_hs p)) (fun '(r, s) => Ok (r, on_hs (fun _ => s) p)) = Ok (o, p') -> ours p').
    { intros ao0 E. destruct (run_op converse ao0 (the_hs p)) as [[a s]| |] eqn:ER; cbn [bind] in E; try discriminate. injection E as <- <-.
      apply run_op_kept in ER. destruct ER as [(K & _) _]. destruct O as [O1 O2]. split; [cbn; congruence|exact O2]. }
    destruct ao; try (eapply G; exact H). discriminate.
  - match type of H with bind ?f _ = _ => destruct f as [[r q]| |] eqn:E end; cbn [bind] in H; try discriminate. injection H as <- <-. pose proof O as [HM HF].
    destruct m.
    + destruct (authenticate_parts _ _ _ _ _ O E) as (p1 & p2 & -> & E1 & E2). assert (O1 : ours (if dp_fchoice p =? 0 then on_hs (fun s => set_delay (start_timer (ce_now e) (h_delay s)) s) (on_hs wiped p) else p)) by (destruct (dp_fchoice p =? 0); exact O).
      assert (O2 : ours p2) by (eapply hdispatch_ours; [exact O1| |exact E1]; lia).
      destruct (r =? 31); [subst; exact O2|]. destruct E2 as (p3 & -> & E2). destruct (await_calm _ _ _ _ E2) as [C _]. eapply calm_ours; [exact C|]. exact O2.
    + unfold setcred in E. rewrite HM in E. eapply hdispatch_ours; [exact O| |exact E]; lia.
    + unfold acct_mgmt in E. rewrite HM in E. eapply hdispatch_ours; [exact O| |exact E]; lia.
    + unfold open_session in E. rewrite HM in E. eapply hdispatch_ours; [exact O| |exact E]; lia.
    + unfold close_session in E. rewrite HM in E. eapply hdispatch_ours; [exact O| |exact E]; lia.
    + destruct (chauthtok_parts _ _ _ _ _ _ O E) as [(_ & _ & ->)|(_ & p1 & r1 & p2 & r2 & p3 & E1 & E2 & E3 & -> & E4)]; [exact O|].
      assert (O1 : ours p1) by (subst p1; destruct (dp_fchoice p =? 0); exact O).
      assert (O2 : ours p2).
      { destruct (h_update (the_hs p1)); [destruct E2 as [_ ->]; exact O1|]. eapply hdispatch_ours; [exact O1| |exact E2]; lia. }
      assert (O3 : ours p3).
      { destruct (r1 =? 0); [|destruct E3 as [_ ->]; exact O2]. eapply hdispatch_ours; [| |exact E3]; [exact O2|lia]. }
      destruct (r2 =? 31); [subst; exact O3|]. destruct E4 as (p4 & -> & E4). destruct (await_calm _ _ _ _ E4) as [C _]. eapply calm_ours; [exact C|]. exact O3.
    + discriminate.
Qed.
Theorem control_is_back : forall l p o p', ours p -> acts l p = Ok (o, p') -> ours p'.
Proof.
  induction l as [|a l IH]; intros p o p' O H; cbn [Handle_Model.acts] in H; [injection H as <- <-; exact O|].
  destruct (act a p) as [[r p1]| |] eqn:E; cbn [bind] in H; try discriminate. destruct (acts l p1) as [[rs p2]| |] eqn:E2; cbn [bind] in H; try discriminate.
  injection H as <- <-. eapply IH; [|exact E2]. eapply act_ours; eassumption.
Qed.
Lemma started_ours : forall oom service user conv w p, start load oom service user conv w = Ok (0, Some p) -> ours p /\ h_loaded (the_hs p) = true /\ dp_fchoice p = 0 /\ dones (h_log (the_hs p)) = [] /\ h_update (the_hs p) = false.
Proof.
  intros oom service user conv w p H. unfold start in H. match type of H with bind ?f _ = _ => destruct f as [[rv q]| |] eqn:E end; cbn [bind] in H; try discriminate.
  destruct (Z.eqb_spec rv 0) as [->|N]; [|discriminate]. injection H as ->. destruct (init_spec _ _ _ _ _ E) as ((A & B & C & D) & F & _ & G & _).
  split; [split; [exact A|exact G]|]. split; [|split; [exact F|split; [exact D|exact B]]].
  unfold init in E. cbn [the_hs start_handle dp_st ww h_loaded] in E. destruct oom; [discriminate|]. cbn [h_str s_service] in E.
  match type of E with bind ?f _ = _ => destruct f as [[rv c]| |] end; cbn [bind] in E; try discriminate. injection E as -> <-. reflexivity.
Qed.

(** ** C23: applications and passwords *)
Theorem application_cannot_read_or_set_passwords : forall oom service user conv w p l o p' ty, start load oom service user conv w = Ok (0, Some p) ->
  acts l p = Ok (o, p') -> ty = 6 \/ ty = 7 ->
  get_item ty (the_hs p') = (29, VNull) /\ forall oom oom2 a, set_item oom oom2 ty a (the_hs p') = Ok (29, the_hs p').
Proof.
  intros oom service user conv w p l o p' ty S H T. destruct (started_ours _ _ _ _ _ _ S) as [O _]. destruct (control_is_back _ _ _ _ O H) as [M _].
  split; [destruct T as [-> | ->]; unfold get_item; cbn; rewrite M; reflexivity|].
  intros oom0 oom2 a. destruct T as [-> | ->]; unfold set_item; cbn [Z.eqb Pos.eqb orb]; rewrite M; reflexivity.
Qed.

(** ** C24 *)
Theorem no_password_survives : forall m e1 e flags p r v p', m = MAuthenticate \/ m = MChauthtok -> ours p ->
  (m = MChauthtok -> Z.land flags 24576 = 0) ->
  act (AMgmt m e1 e flags) p = Ok ((r, v), p') -> r <> 31 -> item 6 (the_hs p') = VNull /\ item 7 (the_hs p') = VNull.
Proof.
  intros m e1 e flags p r v p' HM O HF H NR. cbn [Handle_Model.act] in H.
  match type of H with bind ?f _ = _ => destruct f as [[r0 q]| |] eqn:E end; cbn [bind] in H; try discriminate. injection H as -> <- ->.
  assert (W : forall s : hs X, h_str (the_hs p') = h_str (wiped s) -> item 6 (the_hs p') = VNull /\ item 7 (the_hs p') = VNull).
  { intros s Q. unfold item, get_item. cbn [h_module set_module h_str]. rewrite Q. split; reflexivity. }
  destruct HM as [-> | ->].
  - destruct (authenticate_parts _ _ _ _ _ O E) as (p1 & p2 & -> & E1 & E2). rewrite (proj2 (Z.eqb_neq r 31) NR) in E2. destruct E2 as (p3 & -> & E2).
    destruct (await_calm _ _ _ _ E2) as (_ & Q & _). eapply W. exact Q.
  - destruct (chauthtok_parts _ _ _ _ _ _ O E) as [(Q & _)|(_ & p1 & r1 & p2 & r2 & p3 & E1 & E2 & E3 & -> & E4)]; [exfalso; apply Q; apply HF; reflexivity|].
    rewrite (proj2 (Z.eqb_neq r2 31) NR) in E4. destruct E4 as (p4 & -> & E4). destruct (await_calm _ _ _ _ E4) as (_ & Q & _). eapply W. exact Q.
Qed.
(** A fresh call does not depend on passwords left in the handle. *)
Theorem fresh_call_starts_without_password : forall m e1 e flags p, m = MAuthenticate \/ m = MChauthtok -> ours p -> dp_fchoice p = 0 ->
  (m = MChauthtok -> Z.land flags 24576 = 0) ->
  act (AMgmt m e1 e flags) p = act (AMgmt m e1 e flags) (on_hs wiped p).
Proof.
  intros m e1 e flags p HM [O1 O2] HC HF. cbn [Handle_Model.act]. destruct HM as [-> | ->].
  - unfold Handle_Model.authenticate. change (h_module (the_hs (on_hs wiped p))) with (h_module (the_hs p)). rewrite O1.
    change (dp_fchoice (on_hs wiped p)) with (dp_fchoice p). rewrite HC. rewrite !lift_sanitize. reflexivity.
  - unfold Handle_Model.chauthtok. change (h_module (the_hs (on_hs wiped p))) with (h_module (the_hs p)). rewrite O1.
    change (dp_fchoice (on_hs wiped p)) with (dp_fchoice p). change (Z.lor PRELIM UPDATE) with 24576. rewrite HC, (HF eq_refl), !lift_sanitize. reflexivity.
Qed.

(** ** C27: the two phases of a password change *)
(** The log of walks over stacks, newest first: a walk in the update phase of pam_chauthtok comes directly after
    a walk in the preliminary phase that succeeded, or after one in the update phase that was suspended. *)
Definition is_update (e : event) : Prop := match e with EvDone 6 fl _ _ => Z.testbit fl 13 = true | _ => False end.
Definition before_update (e : event) : Prop :=
  match e with EvDone 6 fl _ r => (Z.testbit fl 14 = true /\ Z.testbit fl 13 = false /\ r = 0) \/ (Z.testbit fl 13 = true /\ r = 31) | _ => False end.
Fixpoint in_order (l : list event) : Prop :=
  match l with
  | [] => True
  | e :: l => (is_update e -> exists e0 l0, l = e0 :: l0 /\ before_update e0) /\ in_order l
  end.

Lemma flag_bits : forall flags, Z.land flags (Z.lor PRELIM UPDATE) = 0 ->
  Z.testbit (Z.lor flags PRELIM) 14 = true /\ Z.testbit (Z.lor flags PRELIM) 13 = false /\
  Z.testbit (Z.lor flags UPDATE) 14 = false /\ Z.testbit (Z.lor flags UPDATE) 13 = true.
Proof.
  intros flags H.
  assert (A : Z.testbit flags 13 = false). { pose proof (f_equal (fun z => Z.testbit z 13) H) as E. cbv beta in E. rewrite Z.land_spec, Z.bits_0 in E. change (Z.testbit (Z.lor PRELIM UPDATE) 13) with true in E. rewrite andb_true_r in E. exact E. }
  assert (B : Z.testbit flags 14 = false). { pose proof (f_equal (fun z => Z.testbit z 14) H) as E. cbv beta in E. rewrite Z.land_spec, Z.bits_0 in E. change (Z.testbit (Z.lor PRELIM UPDATE) 14) with true in E. rewrite andb_true_r in E. exact E. }
  rewrite !Z.lor_spec, A, B. repeat split.
Qed.

Definition phase_inv (p : dpam (hs X)) : Prop :=
  in_order (dones (h_log (the_hs p))) /\
  (h_update (the_hs p) = true -> dp_fchoice p = 6 ->
   exists fl re l, dones (h_log (the_hs p)) = EvDone 6 fl re 31 :: l /\ Z.testbit fl 13 = true).
Lemma calm_phase : forall p p', calm p p' -> phase_inv p -> phase_inv p'.
Proof. intros p p' ((_ & U & _ & D) & _ & C) [I1 I2]. unfold phase_inv. rewrite U, D, C. auto. Qed.
Lemma other_phase : forall e flags choice p r p', ours p -> 1 <= choice <= 5 -> hdispatch e flags choice p = Ok (r, p') -> phase_inv p -> phase_inv p'.
Proof.
  intros e flags choice p r p' [HM HF] HC H [I1 I2]. destruct (hdispatch_cases _ _ _ _ _ _ _ _ _ H HM HF ltac:(lia)) as (_ & _ & U & [(D & C & _)|(C & D & C' & _)]).
  - unfold phase_inv. rewrite U, D, C. auto.
  - unfold phase_inv. rewrite D. split; [|intros _ Q; exfalso; lia]. cbn [in_order]. split; [|exact I1]. intros Q. exfalso. cbn in Q. 
    assert (E : choice = 1 \/ choice = 2 \/ choice = 3 \/ choice = 4 \/ choice = 5) by lia. destruct E as [->|[->|[->|[->| ->]]]]; exact Q.
Qed.
Lemma act_phase : forall a p o p', ours p -> act a p = Ok (o, p') -> phase_inv p -> phase_inv p'.
Proof.
  intros a p o p' O H I. destruct a as [ao|m e1 e flags]; cbn [Handle_Model.act] in H.
  - assert (G : forall ao, bind (run_op converse ao (the_hs p)) (fun '(r, s) => Ok (r, on_hs (fun _ => s) p)) = Ok (o, p') -> phase_inv p').
    { intros ao0 E. destruct (run_op converse ao0 (the_hs p)) as [[a s]| |] eqn:ER; cbn [bind] in E; try discriminate. injection E as <- <-.
      apply run_op_kept in ER. destruct ER as [K _]. eapply calm_phase; [|exact I]. split; [exact K|split; reflexivity]. }
    destruct ao; try (eapply G; exact H). discriminate.
  - match type of H with bind ?f _ = _ => destruct f as [[r q]| |] eqn:E end; cbn [bind] in H; try discriminate. injection H as <- <-. pose proof O as [HM HF].
    destruct m.
    + destruct (authenticate_parts _ _ _ _ _ O E) as (p1 & p2 & E0 & E1 & E2). assert (C1 : calm p p1) by (subst p1; destruct (dp_fchoice p =? 0); repeat split).
      pose proof (calm_ours _ _ C1 O) as O1. pose proof (calm_phase _ _ C1 I) as I1.
      assert (I2 : phase_inv p2) by (eapply other_phase; [exact O1| |exact E1|exact I1]; lia).
      destruct (r =? 31); [subst; exact I2|]. destruct E2 as (p3 & -> & E2). destruct (await_calm _ _ _ _ E2) as [C _]. eapply calm_phase; [exact C|]. eapply calm_phase; [apply wiped_calm|exact I2].
    + unfold setcred in E. rewrite HM in E. eapply other_phase; [exact O| |exact E|exact I]; lia.
    + unfold acct_mgmt in E. rewrite HM in E. eapply other_phase; [exact O| |exact E|exact I]; lia.
    + unfold open_session in E. rewrite HM in E. eapply other_phase; [exact O| |exact E|exact I]; lia.
    + unfold close_session in E. rewrite HM in E. eapply other_phase; [exact O| |exact E|exact I]; lia.
    + destruct (chauthtok_parts _ _ _ _ _ _ O E) as [(_ & _ & ->)|(FL & p1 & r1 & p2 & r2 & p3 & E1 & E2 & E3 & -> & E4)]; [exact I|].
      destruct (flag_bits _ FL) as (B1 & B2 & B3 & B4).
      assert (O1 : ours p1) by (subst p1; destruct (dp_fchoice p =? 0); exact O).
      assert (I1 : phase_inv p1 /\ (h_update (the_hs p1) = true -> dp_fchoice p1 <> 0)).
      { subst p1. destruct (Z.eqb_spec (dp_fchoice p) 0) as [Q|Q]; [|split; [exact I|intros _; exact Q]]. split; [|discriminate]. split; [apply I|discriminate]. }
      destruct I1 as [I1 N1].
      (* after the preliminary phase *)
      assert (S2 : ours p2 /\ in_order (dones (h_log (the_hs p2))) /\
                   (r1 = 0 -> dp_fchoice p2 = 0 \/ dp_fchoice p2 = 6 -> exists e0 l0, dones (h_log (the_hs p2)) = e0 :: l0 /\ before_update e0) /\
                   (r1 <> 0 -> phase_inv p2)).
      { destruct (h_update (the_hs p1)) eqn:EU.
        - destruct E2 as [-> ->]. split; [exact O1|]. split; [apply I1|]. split; [|congruence]. intros _ [Q|Q]; [exfalso; exact (N1 eq_refl Q)|].
          destruct I1 as [_ I1]. destruct (I1 EU Q) as (fl & re & l & -> & T). eexists; eexists. split; [reflexivity|]. right. auto.
        - destruct O1 as [OM OF]. destruct (hdispatch_cases _ _ _ _ _ _ _ _ _ E2 OM OF ltac:(lia)) as (A1 & A2 & U & [(D & C & NR & _)|(C & D & C' & _)]).
          + split; [split; assumption|]. rewrite D. split; [apply I1|]. split; [congruence|]. intros _. split; [rewrite D; apply I1|rewrite U, EU; discriminate].
          + split; [split; assumption|]. rewrite D. split; [|split].
            * cbn [in_order]. split; [|apply I1]. intros Q. exfalso. change (Z.testbit (Z.lor flags PRELIM) 13 = true) in Q. congruence.
            * intros -> _. eexists; eexists. split; [reflexivity|]. left. auto.
            * intros _. split; [|rewrite U, EU; discriminate]. rewrite D. cbn [in_order]. split; [|apply I1]. intros Q. exfalso. change (Z.testbit (Z.lor flags PRELIM) 13 = true) in Q. congruence. }
      destruct S2 as (O2 & D2 & L2 & I2).
      (* after the update phase *)
      assert (S3 : in_order (dones (h_log (the_hs p3))) /\ (r2 = 31 -> phase_inv p3)).
      { destruct (Z.eqb_spec r1 0) as [->|N].
        - destruct O2 as [OM OF]. destruct (hdispatch_cases _ _ _ _ _ _ _ _ _ E3 OM OF ltac:(lia)) as (A1 & A2 & U & [(D & C & _)|(C & D & C' & C31 & _)]).
          + cbn [the_hs on_hs dp_st ww h_log set_update] in D. split; [rewrite D; exact D2|]. intros _. split; [rewrite D; exact D2|].
            intros _ Q. rewrite C in Q. cbn in Q.
            (* suspended in chauthtok but not walked: impossible unless reloading failed; the last walk is the suspended one *)
            destruct (h_update (the_hs p1)) eqn:EU.
            * destruct E2 as [_ ->]. destruct I1 as [_ I1]. rewrite D. apply I1; assumption.
            * exfalso. destruct O1 as [OM1 OF1]. destruct (hdispatch_cases _ _ _ _ _ _ _ _ _ E2 OM1 OF1 ltac:(lia)) as (_ & _ & _ & [(_ & _ & NR & _)|(_ & _ & _ & _ & AQ & _)]); [congruence|].
              rewrite AQ in Q by discriminate. discriminate.
          + cbn [the_hs on_hs dp_st ww h_log set_update] in D. cbn [dp_fchoice on_hs] in C. assert (IO : in_order (dones (h_log (the_hs p3)))).
            { rewrite D. cbn [in_order]. split; [|exact D2]. intros _. apply L2; [reflexivity|exact C]. }
            split; [exact IO|]. intros ->. split; [exact IO|]. intros _ _. rewrite D. do 3 eexists. split; [reflexivity|exact B4].
        - destruct E3 as [-> ->]. split; [exact D2|]. intros _. apply I2. exact N. }
      destruct S3 as [D3 I3]. destruct (Z.eqb_spec r2 31) as [->|N]; [subst; apply I3; reflexivity|]. destruct E4 as (p4 & -> & E4).
      destruct (await_calm _ _ _ _ E4) as [C _]. eapply calm_phase; [exact C|]. split; [exact D3|discriminate].
    + discriminate.
Qed.

(** C27, whatever the modules, the application, the audit subsystem and the configuration do. *)
Theorem update_only_after_prelim : forall oom service user conv w p l o p', start load oom service user conv w = Ok (0, Some p) ->
  acts l p = Ok (o, p') -> in_order (dones (h_log (the_hs p'))).
Proof.
  intros oom service user conv w p l o p' S H. destruct (started_ours _ _ _ _ _ _ S) as (O & _ & _ & D & U).
  assert (I : phase_inv p) by (split; [rewrite D; exact I|rewrite U; discriminate]). clear S D U. revert p o O I H.
  induction l as [|a l IH]; intros p o O I H; cbn [Handle_Model.acts] in H; [injection H as <- <-; apply I|].
  destruct (act a p) as [[r p1]| |] eqn:E; cbn [bind] in H; try discriminate. destruct (acts l p1) as [[rs p2]| |] eqn:E2; cbn [bind] in H; try discriminate.
  injection H as <- <-. eapply IH; [| |exact E2]; [eapply act_ours|eapply act_phase]; eassumption.
Qed.

(** Where a handle is, from the log of walks: nothing suspended, the preliminary phase of a password change just
    succeeded, or a call suspended (and whether in the update phase). *)
Inductive place := Idle | Checked | Suspended (choice : Z) (update : bool).
Definition in_phase (fl : Z) (update : bool) : bool := Bool.eqb (Z.testbit fl 13) update && Bool.eqb (Z.testbit fl 14) (negb update).
Definition walk (pl : place) (choice fl : Z) (resumed : bool) (r : Z) : option place :=
  match pl with
  | Idle =>
      if resumed then None
      else if choice =? 6 then
        if in_phase fl false then Some (if r =? 31 then Suspended 6 false else if r =? 0 then Checked else Idle) else None
      else Some (if r =? 31 then Suspended choice false else Idle)
  | Checked =>
      if negb resumed && (choice =? 6) && in_phase fl true then Some (if r =? 31 then Suspended 6 true else Idle) else None
  | Suspended c u =>
      if resumed && (choice =? c) && (negb (c =? 6) || in_phase fl u)
      then Some (if r =? 31 then Suspended c u else if (c =? 6) && negb u && (r =? 0) then Checked else Idle) else None
  end.
Fixpoint place_of (l : list event) : option place :=
  match l with
  | [] => Some Idle
  | EvDone choice fl re r :: l => match place_of l with Some pl => walk pl choice fl re r | None => None end
  | _ :: l => place_of l
  end.
Lemma place_dones : forall l, place_of (dones l) = place_of l.
Proof. induction l as [|e l IH]; [reflexivity|]. destruct e; cbn [dones filter is_done place_of] in *; try exact IH. unfold dones in IH. rewrite IH. reflexivity. Qed.

(** Actions of an application that does not change PAM_SERVICE, with an audit subsystem that can be written to. *)
Definition steady (a : action (X := X)) : Prop :=
  match a with AOp o => no_service o | AMgmt _ e1 e _ => audit_quiet (ce_audit e1) /\ audit_quiet (ce_audit e) end.
Definition placed (p : dpam (hs X)) : Prop :=
  h_loaded (the_hs p) = true /\
  place_of (h_log (the_hs p)) = Some (if dp_fchoice p =? 0 then Idle else Suspended (dp_fchoice p) ((dp_fchoice p =? 6) && h_update (the_hs p))) /\
  0 <= dp_fchoice p <= 6.
Lemma placed_eq : forall p p', h_loaded (the_hs p') = h_loaded (the_hs p) -> calm p p' -> placed p -> placed p'.
Proof.
  intros p p' L ((_ & U & _ & D) & _ & C) (P1 & P2 & P3). unfold placed. rewrite L, C, U, <- place_dones, D, place_dones. auto.
Qed.
Hypothesis modules_keep_service : forall f fl l, keeps_service (code f fl l).
Lemma other_placed : forall e flags choice p r p', ours p -> 1 <= choice <= 5 -> audit_quiet (ce_audit e) -> hdispatch e flags choice p = Ok (r, p') -> placed p -> placed p'.
Proof.
  intros e flags choice p r p' [HM HF] HC Q H (P1 & P2 & P3). destruct (hdispatch_cases _ _ _ _ _ _ _ _ _ H HM HF ltac:(lia)) as (_ & _ & U & [(D & C & _ & _ & _ & L)|(C & D & C' & _ & _ & QQ & L)]).
  - unfold placed. rewrite U, C, <- place_dones, D, place_dones. auto.
  - split; [apply L; assumption|]. specialize (QQ Q). split; [|destruct C' as [-> | ->]; lia].
    rewrite <- place_dones, D. cbn [place_of]. rewrite place_dones, P2, QQ.
    assert (N6 : choice =? 6 = false) by (apply Z.eqb_neq; lia). assert (N0 : choice =? 0 = false) by (apply Z.eqb_neq; lia).
    destruct C as [-> | ->]; cbn [Z.eqb negb walk].
    + rewrite N6. destruct (r =? 31); [rewrite N0, N6; reflexivity|reflexivity].
    + rewrite N0, N6. cbn [negb walk andb orb]. rewrite Z.eqb_refl, N6. cbn [andb negb orb]. destruct (r =? 31); [rewrite N0, N6; reflexivity|reflexivity].
Qed.
Lemma in_phases : forall flags, Z.land flags (Z.lor PRELIM UPDATE) = 0 -> in_phase (Z.lor flags PRELIM) false = true /\ in_phase (Z.lor flags UPDATE) true = true.
Proof. intros flags H. destruct (flag_bits _ H) as (A & B & C & D). unfold in_phase. rewrite A, B, C, D. split; reflexivity. Qed.

Lemma act_placed : forall a p o p', steady a -> ours p -> act a p = Ok (o, p') -> placed p -> placed p'.
Proof.
  intros a p o p' ST O H I. destruct a as [ao|m e1 e flags]; cbn [Handle_Model.act steady] in *.
  - assert (G : bind (run_op converse ao (the_hs p)) (fun '(r, s) => Ok (r, on_hs (fun _ => s) p)) = Ok (o, p') -> placed p').
    { intros E. destruct (run_op converse ao (the_hs p)) as [[a s]| |] eqn:ER; cbn [bind] in E; try discriminate. injection E as <- <-.
      apply run_op_kept in ER. destruct ER as [K L]. eapply placed_eq; [exact (L ST)| |exact I]. split; [exact K|split; reflexivity]. }
    destruct ao; try (apply G; exact H). discriminate.
  - match type of H with bind ?f _ = _ => destruct f as [[r q]| |] eqn:E end; cbn [bind] in H; try discriminate. injection H as <- <-. pose proof O as [HM HF]. destruct ST as [Q1 Q].
    destruct m.
    + destruct (authenticate_parts _ _ _ _ _ O E) as (p1 & p2 & E0 & E1 & E2). assert (C1 : calm p p1 /\ h_loaded (the_hs p1) = h_loaded (the_hs p)) by (subst p1; destruct (dp_fchoice p =? 0); repeat split).
      destruct C1 as [C1 L1]. pose proof (calm_ours _ _ C1 O) as O1. pose proof (placed_eq _ _ L1 C1 I) as I1.
      assert (I2 : placed p2) by (eapply other_placed; [exact O1| |exact Q|exact E1|exact I1]; lia).
      destruct (r =? 31); [subst; exact I2|]. destruct E2 as (p3 & -> & E2). destruct (await_calm _ _ _ _ E2) as (C & _ & L). eapply placed_eq; [exact L|exact C|]. apply (placed_eq p2); [reflexivity|apply wiped_calm|exact I2].
    + unfold setcred in E. rewrite HM in E. eapply other_placed; [exact O| |exact Q|exact E|exact I]; lia.
    + unfold acct_mgmt in E. rewrite HM in E. eapply other_placed; [exact O| |exact Q|exact E|exact I]; lia.
    + unfold open_session in E. rewrite HM in E. eapply other_placed; [exact O| |exact Q|exact E|exact I]; lia.
    + unfold close_session in E. rewrite HM in E. eapply other_placed; [exact O| |exact Q|exact E|exact I]; lia.
    + destruct (chauthtok_parts _ _ _ _ _ _ O E) as [(_ & _ & ->)|(FL & p1 & r1 & p2 & r2 & p3 & E1 & E2 & E3 & -> & E4)]; [exact I|].
      destruct (in_phases _ FL) as (B1 & B2).
      assert (O1 : ours p1) by (subst p1; destruct (dp_fchoice p =? 0); exact O).
      assert (I1 : placed p1 /\ dp_fchoice p1 = dp_fchoice p /\ (h_update (the_hs p1) = true -> dp_fchoice p <> 0)).
      { subst p1. destruct (Z.eqb_spec (dp_fchoice p) 0) as [QQ|QQ]; [|split; [exact I|split; [reflexivity|intros _; exact QQ]]]. split; [|split; [reflexivity|discriminate]].
        destruct I as (P1 & P2 & P3). split; [exact P1|]. split; [|exact P3]. cbn [dp_fchoice on_hs]. rewrite QQ in *. exact P2. }
      destruct I1 as (I1 & C1 & N1).
      (* a call that is not walked leaves the place *)
      set (pl2 := if r1 =? 0 then if h_update (the_hs p1) then (if dp_fchoice p =? 0 then Idle else Suspended (dp_fchoice p) (dp_fchoice p =? 6)) else Checked
                  else (if dp_fchoice p2 =? 0 then Idle else Suspended (dp_fchoice p2) false)).
      assert (S2 : ours p2 /\ h_loaded (the_hs p2) = true /\ place_of (h_log (the_hs p2)) = Some pl2 /\ 0 <= dp_fchoice p2 <= 6 /\
                   h_update (the_hs p2) = h_update (the_hs p1) /\ (r1 = 0 -> dp_fchoice p2 = if h_update (the_hs p1) then dp_fchoice p else 0) /\
                   (r1 = 31 -> placed p2) /\ (r1 <> 0 -> h_update (the_hs p1) = false)).
      { destruct I1 as (P1 & P2 & P3). destruct (h_update (the_hs p1)) eqn:EU.
        - destruct E2 as [-> ->]. split; [exact O1|]. split; [exact P1|]. split; [unfold pl2; rewrite P2, C1, ?EU, ?andb_true_r; reflexivity|]. split; [lia|]. split; [exact EU|]. split; [intros _; exact C1|]. split; [discriminate|congruence].
        - destruct O1 as [OM OF]. destruct (hdispatch_cases _ _ _ _ _ _ _ _ _ E2 OM OF ltac:(lia)) as (A1 & A2 & U & [(D & C & NR & W & R & L)|(C & D & C' & C31 & C0 & QQ & L)]).
          + split; [split; assumption|]. split; [auto|]. split.
            { unfold pl2. rewrite (proj2 (Z.eqb_neq r1 0) NR). rewrite <- place_dones, D, place_dones, P2, C, ?EU, ?andb_false_r. reflexivity. }
            split; [lia|]. split; [congruence|]. split; [congruence|]. split; [|auto]. intros ->. exfalso. destruct (R P1); discriminate.
          + split; [split; assumption|]. split; [apply L; assumption|]. specialize (QQ Q1).
            assert (PL : place_of (h_log (the_hs p2)) = Some (if r1 =? 31 then Suspended 6 false else if r1 =? 0 then Checked else Idle)).
            { rewrite <- place_dones, D. cbn [place_of]. rewrite place_dones, P2, ?EU, ?andb_false_r. destruct C as [-> | ->]; cbn [Z.eqb Pos.eqb negb walk andb orb]; rewrite B1; cbn [andb orb]; destruct (r1 =? 31); reflexivity. }
            split.
            { rewrite PL. unfold pl2. rewrite QQ. destruct (Z.eqb_spec r1 31) as [->|N31]; [reflexivity|]. destruct (r1 =? 0); reflexivity. }
            split; [rewrite QQ; destruct (r1 =? 31); lia|]. split; [congruence|]. split; [intros ->; exact QQ|]. split; [|auto]. intros ->. split; [apply L; assumption|]. split; [|rewrite QQ; cbn; lia].
            rewrite PL, QQ, U, ?EU. reflexivity. }
      destruct S2 as (O2 & L2 & P2 & R2 & U2 & C2 & I2 & N2).
      (* after the update phase *)
      assert (S3 : h_loaded (the_hs p3) = true /\ 0 <= dp_fchoice p3 <= 6 /\
          place_of (h_log (the_hs p3)) = Some (if dp_fchoice p3 =? 0 then Idle else Suspended (dp_fchoice p3) ((dp_fchoice p3 =? 6) && (r1 =? 0))) /\
          (r2 = 31 -> h_update (the_hs p3) = (r1 =? 0)) /\ (r1 = 0 -> dp_fchoice p3 = 6 -> r2 = 31)).
      { destruct (Z.eqb_spec r1 0) as [->|N].
        - specialize (C2 eq_refl). destruct O2 as [OM OF]. destruct (hdispatch_cases _ _ _ _ _ _ _ _ _ E3 OM OF ltac:(lia)) as (A1 & A2 & U & [(D & C & NR & W & R & L)|(C & D & C' & C31 & C0 & QQ & L)]).
          + cbn [the_hs on_hs dp_st ww h_log h_loaded h_update set_update dp_fchoice] in D, C, W, U, L. change (h_loaded (ww (dp_st p2))) with (h_loaded (the_hs p2)) in W, L. rewrite L2 in W. cbn [andb] in W. apply orb_false_elim in W. destruct W as [W0 W6].
            apply Z.eqb_neq in W0. apply Z.eqb_neq in W6. rewrite C. split; [auto|]. split; [exact R2|].
            destruct (h_update (the_hs p1)) eqn:EU; [|congruence].
            split; [|split; [intros _; exact U|intros _ QQ; congruence]]. rewrite <- place_dones. rewrite D. change (ww (dp_st p2)) with (the_hs p2). rewrite place_dones, P2. unfold pl2. cbn [Z.eqb]. rewrite C2. 
            rewrite (proj2 (Z.eqb_neq (dp_fchoice p) 0)) by congruence. rewrite (proj2 (Z.eqb_neq (dp_fchoice p) 6)) by congruence. reflexivity.
          + cbn [the_hs on_hs dp_st ww h_log h_loaded h_update set_update dp_fchoice] in D, C, U, L. specialize (QQ Q). split; [apply L; assumption|]. split; [rewrite QQ; destruct (r2 =? 31); lia|].
            split; [|split; [intros _; exact U|intros _ C6; rewrite QQ in C6; destruct (Z.eqb_spec r2 31); [assumption|discriminate]]].
            rewrite <- place_dones, D. cbn [place_of]. change (ww (dp_st p2)) with (the_hs p2). rewrite place_dones, P2. unfold pl2. cbn [Z.eqb]. rewrite QQ, C2.
            destruct (h_update (the_hs p1)) eqn:EU.
            * assert (dp_fchoice p = 6) by (destruct C as [C|C]; [exfalso; apply N1; [reflexivity|congruence]|congruence]).
              replace (dp_fchoice p) with 6 by congruence. cbn [Z.eqb Pos.eqb negb walk andb orb]. rewrite B2. cbn [andb]. destruct (r2 =? 31); reflexivity.
            * cbn [Z.eqb Pos.eqb negb walk andb orb]. rewrite B2. destruct (r2 =? 31); reflexivity.
        - destruct E3 as [-> ->]. split; [exact L2|]. split; [exact R2|]. rewrite P2. unfold pl2. rewrite ?(proj2 (Z.eqb_neq r1 0) N), andb_false_r. split; [reflexivity|]. split; [intros _; rewrite U2; apply N2; exact N|congruence]. }
      destruct S3 as (L3 & R3 & P3 & U3 & K3). destruct (Z.eqb_spec r2 31) as [->|N].
      { subst q. split; [exact L3|]. split; [|exact R3]. rewrite P3. rewrite (U3 eq_refl). reflexivity. }
      destruct E4 as (p4 & -> & E4). destruct (await_calm _ _ _ _ E4) as (C & _ & L). eapply placed_eq; [exact L|exact C|]. split; [exact L3|]. split; [|exact R3].
      change (h_update (the_hs (on_hs (set_update false) (on_hs wiped p3)))) with false. change (h_log (the_hs (on_hs (set_update false) (on_hs wiped p3)))) with (h_log (the_hs p3)).
      cbn [dp_fchoice on_hs]. rewrite P3. f_equal. destruct (dp_fchoice p3 =? 0); [reflexivity|]. f_equal. rewrite andb_false_r.
      destruct (Z.eqb_spec (dp_fchoice p3) 6) as [E6|]; [|reflexivity]. destruct (Z.eqb_spec r1 0) as [Z1|]; [|reflexivity]. exfalso. apply N. apply K3; assumption.
    + discriminate.
Qed.

(** C27: the walks over stacks follow the protocol: calls are resumed and nothing else runs meanwhile; a password
    change begins with a fresh preliminary walk, the update walk follows the success of that, directly, and each
    phase is resumed in that phase. *)
Theorem phases_follow_protocol : forall oom service user conv w p l o p', start load oom service user conv w = Ok (0, Some p) ->
  Forall steady l -> acts l p = Ok (o, p') ->
  place_of (h_log (the_hs p')) = Some (if dp_fchoice p' =? 0 then Idle else Suspended (dp_fchoice p') ((dp_fchoice p' =? 6) && h_update (the_hs p'))).
Proof.
  intros oom service user conv w p l o p' S F H. destruct (started_ours _ _ _ _ _ _ S) as (O & L & C & D & U).
  assert (I : placed p) by (split; [exact L|]; split; [rewrite <- place_dones, D, C; reflexivity|lia]). clear S D U L C. revert p o O I H.
  induction F as [|a l ST F IH]; intros p o O I H; cbn [Handle_Model.acts] in H; [injection H as <- <-; apply I|].
  destruct (act a p) as [[r p1]| |] eqn:E; cbn [bind] in H; try discriminate. destruct (acts l p1) as [[rs p2]| |] eqn:E2; cbn [bind] in H; try discriminate.
  injection H as <- <-. eapply IH; [| |exact E2]; [eapply act_ours|eapply act_placed]; eassumption.
Qed.
End Handle.

(** ** C28: modules cannot re-enter *)
(** Called while a module runs, each management function refuses and changes nothing. *)
Theorem management_refused_to_modules : forall (X : Type) (converse : nat -> X -> Z -> cstr -> X * (Z * option (option cstr))) code load rnd1 rnd2 rnd3 rnd4 rnd5 m e1 e flags (p : dpam (hs X)),
  h_module (the_hs p) = true -> m <> MEnd ->
  act converse code load rnd1 rnd2 rnd3 rnd4 rnd5 (AMgmt m e1 e flags) p = Ok ((4, None), p) /\
  run_op converse (OMgmt m flags) (the_hs p) = Ok ((4, None), the_hs p).
Proof.
  intros X converse code load rnd1 rnd2 rnd3 rnd4 rnd5 m e1 e flags p H N.
  split; [|cbn [run_op]; rewrite H; reflexivity].
  destruct m; cbn [act]; unfold authenticate, setcred, acct_mgmt, open_session, close_session, chauthtok; rewrite ?H; try reflexivity. congruence.
Qed.

(** The module that does not call them, but behaves as if told PAM_SYSTEM_ERR. *)
Fixpoint without_calls {X} (p : mprog X) : mprog X :=
  match p with
  | Ret r => Ret r
  | Call (OMgmt m fl) k => without_calls (k (4, None))
  | Call o k => Call o (fun a => without_calls (k a))
  end.

Section Strip.
Context {X : Type}.
Variable converse : nat -> X -> Z -> cstr -> X * (Z * option (option cstr)).
Variable code : nat -> Z -> list cstr -> mprog X.
Variable load : X -> cstr -> res (Z * cst).
Variables rnd1 rnd2 rnd3 rnd4 rnd5 : Q -> Q.
Implicit Types p : dpam (hs X).
Let code' := fun f fl l => without_calls (code f fl l).

Lemma run_strip : forall (pr : mprog X) s, h_module s = true -> run converse (without_calls pr) s = run converse pr s.
Proof.
  induction pr as [r|o k IH]; intros s M; [reflexivity|].
  assert (G : forall o, run converse (Call o (fun a => without_calls (k a))) s = run converse (Call o k) s).
  { intros o0. cbn [run]. destruct (run_op converse o0 s) as [[a s1]| |] eqn:E; [|reflexivity|reflexivity]. apply IH. apply run_op_kept in E. destruct E as [(K & _) _]. congruence. }
  destruct o; try apply G. cbn [without_calls run run_op]. rewrite M. apply IH. exact M.
Qed.
Lemma call_strip : forall h flags s, h_module s = true -> call converse code' h flags s = call converse code h flags s /\ h_module (fst (call converse code h flags s)) = true.
Proof.
  intros h flags s M. split; [|destruct (call_kept converse code h flags s) as [(K & _) _]; congruence].
  unfold call, code'. destruct (h_func h); [|reflexivity]. rewrite run_strip by exact M. reflexivity.
Qed.
Lemma prel_eq : forall p1 p2, prel (hs X) (hs X) (fun a b => a = b /\ h_module a = true) p1 p2 -> p1 = p2.
Proof.
  intros [a1 b1 c1 d1 e1 [w1 ca1 g1 t1]] [a2 b2 c2 d2 e2 [w2 ca2 g2 t2]] H. unfold prel, wrel in H. cbn in H. destruct H as (-> & -> & -> & -> & -> & (-> & _) & -> & -> & ->). reflexivity.
Qed.
Lemma dispatch_not_run : forall (W : Type) (call : handler -> Z -> W -> W * Z) rv oom flags choice (p : dpam W), dp_from_module p = false ->
  (rv =? 0) && match stack_for p choice with None => false | Some _ => true end && ((dp_fchoice p =? 0) || (dp_fchoice p =? choice)) = false ->
  dispatch call rv oom flags choice p = Ok (if rv =? 0 then 26 else rv, p).
Proof.
  intros W call rv oom flags choice p F H. unfold dispatch. rewrite F. destruct (rv =? 0); cbn [negb andb] in *; [|reflexivity].
  destruct (stack_for p choice); cbn [andb] in H; [|reflexivity]. rewrite <- negb_orb, H. reflexivity.
Qed.
Lemma hdispatch_strip : forall e flags choice p, dp_from_module p = false -> hdispatch converse code' load e flags choice p = hdispatch converse code load e flags choice p.
Proof.
  intros e flags choice p F. unfold hdispatch. destruct (h_module (the_hs p)); [reflexivity|]. destruct (init load (ce_load_oom e) p) as [[rv p0]| |] eqn:EI; [|reflexivity|reflexivity]. cbn [bind].
  destruct (init_spec _ _ _ _ _ EI) as (_ & _ & _ & F0 & _). cbv zeta.
  match goal with |- context [if ?b then on_hs (fun s => set_choice choice (set_module true s)) p0 else p0] => destruct b eqn:ER end.
  - match goal with |- bind (dispatch_audited ?c1 ?a ?b ?c ?d ?ch ?q) _ = bind (dispatch_audited ?c2 _ _ _ _ _ _) _ =>
      pose proof (dispatch_audited_sim _ _ c1 c2 (fun x y => x = y /\ h_module x = true)) as S; specialize (fun H => S H a b c d ch q q);
      assert (ED : dispatch_audited c1 a b c d ch q = dispatch_audited c2 a b c d ch q) end.
    { match type of S with ?A -> _ => assert (HA : A) end.
      { intros h fl w1 w2 [-> M]. destruct (call_strip h fl w2 M) as [E1 E2]. rewrite E1. repeat split; auto. }
      specialize (S HA). match type of S with ?A -> _ => assert (HB : A) by (unfold prel, wrel; cbn; auto 10) end. specialize (S HB).
      match goal with |- ?l = ?r => destruct l as [[z1 q1]| |], r as [[z2 q2]| |] end; cbn in S; try contradiction; try reflexivity. destruct S as [-> S]. apply prel_eq in S. congruence. }
    rewrite ED. reflexivity.
  - unfold dispatch_audited. rewrite !dispatch_not_run by (exact ER || congruence). reflexivity.
Qed.
Lemma hdispatch_from : forall e flags choice p r p', dp_from_module p = false -> hdispatch converse code load e flags choice p = Ok (r, p') -> dp_from_module p' = false.
Proof.
  intros e flags choice p r p' F H. unfold hdispatch in H. destruct (h_module (the_hs p)); [injection H as <- <-; exact F|].
  destruct (init load (ce_load_oom e) p) as [[rv p0]| |] eqn:EI; cbn [bind] in H; try discriminate. destruct (init_spec _ _ _ _ _ EI) as (_ & _ & _ & F0 & _). cbv zeta in H.
  match type of H with context [dispatch_audited ?c ?e0 rv ?o flags choice ?q] => destruct (dispatch_audited c e0 rv o flags choice q) as [[r1 p1]| |] eqn:ED end; cbn [bind] in H; try discriminate.
  match type of H with (if ?b then _ else _) = _ => destruct b; [discriminate|] end. injection H as <- <-.
  unfold dispatch_audited in ED. match type of ED with match ?f with _ => _ end = _ => destruct f as [[z q]| |] eqn:EZ end; try discriminate.
  apply dispatch_out in EZ; [|match goal with |- context [if ?b then _ else _] => destruct b end; cbn; congruence]. destruct EZ as [M _].
  assert (p1 = q) by (destruct (negb (choice =? 6) || negb (Z.land flags 8192 =? 0) || negb (z =? 0)); injection ED as _ <-; reflexivity). subst q.
  match goal with |- context [if ?b then _ else _] => destruct b end; exact M.
Qed.
Lemma act_strip : forall a p, dp_from_module p = false ->
  act converse code' load rnd1 rnd2 rnd3 rnd4 rnd5 a p = act converse code load rnd1 rnd2 rnd3 rnd4 rnd5 a p /\
  forall o p', act converse code load rnd1 rnd2 rnd3 rnd4 rnd5 a p = Ok (o, p') -> dp_from_module p' = false.
Proof.
  intros a p F. 
  assert (LF : forall f (q q' : dpam (hs X)), lift f q = Ok q' -> dp_from_module q' = dp_from_module q).
  { intros f q q' E. unfold lift in E. destruct (f (the_hs q)); cbn [bind] in E; try discriminate. injection E as <-. reflexivity. }
  destruct a as [o|m e1 e flags].
  - split; [reflexivity|]. intros o0 p' H. cbn [act] in H.
    assert (G : forall o, bind (run_op converse o (the_hs p)) (fun '(r, s) => Ok (r, on_hs (fun _ => s) p)) = Ok (o0, p') -> dp_from_module p' = false).
    { intros o1 E. destruct (run_op converse o1 (the_hs p)) as [[x s]| |]; cbn [bind] in E; try discriminate. injection E as <- <-. exact F. }
    destruct o; try (eapply G; exact H). discriminate.
  - cbn [act].
    assert (P : forall x y : res (Z * dpam (hs X)), x = y -> (forall r p', y = Ok (r, p') -> dp_from_module p' = false) ->
      bind x (fun '(r, p) => Ok ((r, @None ival), p)) = bind y (fun '(r, p) => Ok ((r, None), p)) /\
      forall o p', bind y (fun '(r, p) => Ok ((r, @None ival), p)) = Ok (o, p') -> dp_from_module p' = false).
    { intros x y -> K. split; [reflexivity|]. intros o p' E. destruct y as [[r q]| |]; cbn [bind] in E; try discriminate. injection E as <- <-. eapply K. reflexivity. }
    apply P; clear P.
    + destruct m; unfold authenticate, setcred, acct_mgmt, open_session, close_session, chauthtok; try (rewrite hdispatch_strip by exact F); try reflexivity.
      * destruct (h_module (the_hs p)); [reflexivity|]. match goal with |- bind ?f _ = _ => destruct f as [p1| |] eqn:E1 end; [|reflexivity|reflexivity]. cbn [bind].
        assert (F1 : dp_from_module p1 = false).
        { destruct (dp_fchoice p =? 0); [|congruence]. destruct (lift sanitize p) as [q| |] eqn:EL; cbn [bind] in E1; try discriminate. injection E1 as <-. cbn. rewrite (LF _ _ _ EL). exact F. }
        rewrite hdispatch_strip by exact F1. reflexivity.
      * destruct (h_module (the_hs p)); [reflexivity|]. destruct (negb (Z.land flags (Z.lor PRELIM UPDATE) =? 0)); [reflexivity|].
        match goal with |- bind ?f _ = _ => destruct f as [p1| |] eqn:E1 end; [|reflexivity|reflexivity]. cbn [bind].
        assert (F1 : dp_from_module p1 = false).
        { destruct (dp_fchoice p =? 0); [|congruence]. match type of E1 with bind ?f _ = _ => destruct f as [q| |] eqn:EL end; cbn [bind] in E1; try discriminate. injection E1 as <-. cbn. rewrite (LF _ _ _ EL). exact F. }
        rewrite hdispatch_strip by exact F1. match goal with |- bind ?f _ = _ => destruct f as [[r2 p2]| |] eqn:E2 end; [|reflexivity|reflexivity]. cbn [bind].
        assert (F2 : dp_from_module p2 = false).
        { destruct (h_update (the_hs p1)); [injection E2 as <- <-; exact F1|]. eapply hdispatch_from; [exact F1|exact E2]. }
        rewrite hdispatch_strip by exact F2. reflexivity.
    + intros r p' H. destruct m; unfold authenticate, setcred, acct_mgmt, open_session, close_session, chauthtok in H; try discriminate;
        (destruct (h_module (the_hs p)); [injection H as <- <-; exact F|]); try (eapply hdispatch_from; [exact F|exact H]).
      * match type of H with bind ?f _ = _ => destruct f as [p1| |] eqn:E1 end; cbn [bind] in H; try discriminate.
        assert (F1 : dp_from_module p1 = false).
        { destruct (dp_fchoice p =? 0); [|congruence]. destruct (lift sanitize p) as [q| |] eqn:EL; cbn [bind] in E1; try discriminate. injection E1 as <-. cbn. rewrite (LF _ _ _ EL). exact F. }
        match type of H with bind ?f _ = _ => destruct f as [[r2 p2]| |] eqn:E2 end; cbn [bind] in H; try discriminate. pose proof (hdispatch_from _ _ _ _ _ _ F1 E2) as F2.
        destruct (negb (r2 =? 31)); [|injection H as <- <-; exact F2]. destruct (lift sanitize p2) as [p3| |] eqn:E3; cbn [bind] in H; try discriminate. 
        match type of H with bind ?f _ = _ => destruct f as [p4| |] eqn:E4 end; cbn [bind] in H; try discriminate. injection H as <- <-. rewrite (LF _ _ _ E4), (LF _ _ _ E3). exact F2.
      * destruct (negb (Z.land flags (Z.lor PRELIM UPDATE) =? 0)); [injection H as <- <-; exact F|].
        match type of H with bind ?f _ = _ => destruct f as [p1| |] eqn:E1 end; cbn [bind] in H; try discriminate.
        assert (F1 : dp_from_module p1 = false).
        { destruct (dp_fchoice p =? 0); [|congruence]. match type of E1 with bind ?f _ = _ => destruct f as [q| |] eqn:EL end; cbn [bind] in E1; try discriminate. injection E1 as <-. cbn. rewrite (LF _ _ _ EL). exact F. }
        match type of H with bind ?f _ = _ => destruct f as [[r2 p2]| |] eqn:E2 end; cbn [bind] in H; try discriminate.
        assert (F2 : dp_from_module p2 = false).
        { destruct (h_update (the_hs p1)); [injection E2 as <- <-; exact F1|]. eapply hdispatch_from; [exact F1|exact E2]. }
        match type of H with bind ?f _ = _ => destruct f as [[r3 p3]| |] eqn:E3 end; cbn [bind] in H; try discriminate.
        assert (F3 : dp_from_module p3 = false).
        { destruct (r2 =? 0); [|injection E3 as <- <-; exact F2]. eapply hdispatch_from; [|exact E3]. exact F2. }
        destruct (negb (r3 =? 31)); [|injection H as <- <-; exact F3]. destruct (lift sanitize p3) as [p4| |] eqn:E4; cbn [bind] in H; try discriminate. 
        match type of H with bind ?f _ = _ => destruct f as [p5| |] eqn:E5 end; cbn [bind] in H; try discriminate. injection H as <- <-. rewrite (LF _ _ _ E5). cbn. rewrite (LF _ _ _ E4). exact F3.
Qed.

(** C28: whatever modules do with these calls, no history tells it from modules that make none of them. *)
Theorem module_calls_have_no_effect : forall l p, dp_from_module p = false ->
  acts converse (fun f fl args => without_calls (code f fl args)) load rnd1 rnd2 rnd3 rnd4 rnd5 l p = acts converse code load rnd1 rnd2 rnd3 rnd4 rnd5 l p.
Proof.
  assert (B : forall (A C : Type) (x y : res A) (f g : A -> res C), x = y -> (forall a, y = Ok a -> f a = g a) -> bind x f = bind y g).
  { intros A C x y f g -> K. destruct y; [apply K; reflexivity|reflexivity|reflexivity]. }
  induction l as [|a l IH]; intros p F; [reflexivity|]. cbn [acts]. destruct (act_strip a p F) as [E K]. unfold code' in E.
  apply B; [exact E|]. intros [r p1] E1. rewrite (IH p1 (K _ _ E1)). reflexivity.
Qed.
End Strip.

(** ** Examples *)
(** The world: the codes modules are going to return.  Function 0 returns the next of them, 1 stores a password,
    2 denies unless there is a password, 3 calls pam_authenticate and reports what it got, 4 denies. *)
Definition codes := list Z.
Definition next (w : codes) : codes * Z := match w with [] => ([], 0) | c :: w => (w, c) end.
Definition demo_code (f : nat) (flags : Z) (args : list cstr) : mprog codes :=
  match f with
  | 0%nat => Call (OWorld next) (fun a => Ret (fst a))
  | 1%nat => Call (OSet 6 (AStr (lit "secret")) false false) (fun a => Ret (fst a))
  | 2%nat => Call (OGet 6) (fun a => Ret (match a with (0, Some (VStr _)) => 0 | _ => 7 end))
  | 3%nat => Call (OMgmt MAuthenticate 0) (fun a => Ret (if fst a =? 4 then 0 else 7))
  | _ => Ret 7
  end.
Definition demo_conv (fn : nat) (w : codes) (style : Z) (text : cstr) : codes * (Z * option (option cstr)) := (w, (19, None)).
Definition required_actions : list Z := (-1 :: repeat (-3) 24 ++ 0 :: repeat (-3) 6)%list.
Definition line (f n : nat) : handler := mkH HT_MODULE (Some f) required_actions n n [] (lit "m") 0.
Definition demo_load (w : codes) (service : cstr) : res (Z * cst) :=
  if streq service (lit "bad") then Ok (26, empty_cst)
  else if streq service (lit "strict") then Ok (0, mkC (mkT [line 4 0; line 0 1] [] [] [] [] []) no_handlers 2)
  else Ok (0, mkC (mkT [line 1 0; line 2 1; line 3 2; line 0 3] [] [line 2 4] [] [] [line 0 5; line 0 6]) no_handlers 7).
Definition rid (q : Q) : Q := q.
Definition demo := acts demo_conv demo_code demo_load rid rid rid rid rid.
Definition demo_start (w : codes) : dpam (hs codes) :=
  match start demo_load false (lit "login") None (mkConv (Some 0%nat) 0) w with Ok (0, Some p) => p | _ => start_handle (lit "login") None (mkConv None 0) w end.
Definition quiet_env : cenv := mkCE AuNone false false 0 None None None.
Definition broken_audit : cenv := mkCE (AuOpen true false) false false 0 None None None.
Definition mg (m : mgmt) : action (X := codes) := AMgmt m quiet_env quiet_env 0.
Definition answers_of (r : res (list out * dpam (hs codes))) : option (list Z) := match r with Ok (l, _) => Some (map fst l) | _ => None end.
Definition handle_of (r : res (list out * dpam (hs codes))) : dpam (hs codes) := match r with Ok (_, p) => p | _ => demo_start [] end.

Example started_example : start demo_load false (lit "login") None (mkConv (Some 0%nat) 0) [31] = Ok (0, Some (demo_start [31])).
Proof. vm_compute. reflexivity. Qed.
(** A suspended pam_authenticate, in which a password was stored: the application cannot see it; after the call is
    resumed and done it is gone for the modules of pam_acct_mgmt too. *)
Example password_example :
  let r := demo [mg MAuthenticate; AOp (OGet 6); AOp (OSet 6 ANull false false); mg MAuthenticate; mg MAcct] (demo_start [31; 0]) in
  answers_of r = Some [31; 29; 29; 0; 7] /\
  item 6 (the_hs (handle_of (demo [mg MAuthenticate] (demo_start [31; 0])))) = VStr (lit "secret") /\
  item 6 (the_hs (handle_of r)) = VNull /\ ours (handle_of r).
Proof. cbv zeta. split; [vm_compute; reflexivity|]. split; [vm_compute; reflexivity|]. split; [vm_compute; reflexivity|]. split; vm_compute; reflexivity. Qed.
(** A password change suspended in both phases. *)
Example phases_example :
  let r := demo [mg MChauthtok; mg MAuthenticate; mg MChauthtok; mg MChauthtok] (demo_start [31; 0; 0; 0; 31; 0]) in
  answers_of r = Some [31; 26; 31; 0] /\
  rev (dones (h_log (the_hs (handle_of r)))) =
    [EvDone 6 16384 false 31; EvDone 6 16384 true 0; EvDone 6 8192 false 31; EvDone 6 8192 true 0] /\
  place_of (h_log (the_hs (handle_of r))) = Some Idle.
Proof. cbv zeta. split; [vm_compute; reflexivity|]. split; vm_compute; reflexivity. Qed.
Example demo_keeps_service : forall f fl l, keeps_service (demo_code f fl l).
Proof. intros f fl l. do 4 (destruct f as [|f]; [cbn; auto; split; auto; discriminate|]). exact I. Qed.
Example chauthtok_refuses_phase :
  answers_of (demo [AMgmt MChauthtok quiet_env quiet_env UPDATE; AMgmt MChauthtok quiet_env quiet_env PRELIM] (demo_start [])) = Some [4; 4].
Proof. vm_compute. reflexivity. Qed.

(** C24 is false when pam_chauthtok refuses its flags: the password a suspended pam_authenticate left is kept. *)
Theorem no_password_survives_refuted_by_flags : exists l r, demo l (demo_start [31]) = Ok (r, handle_of (demo l (demo_start [31]))) /\ map fst r = [31; 4] /\
  last l (mg MAcct) = AMgmt MChauthtok quiet_env quiet_env UPDATE /\ item 6 (the_hs (handle_of (demo l (demo_start [31])))) <> VNull.
Proof.
  exists [mg MAuthenticate; AMgmt MChauthtok quiet_env quiet_env UPDATE]. eexists. split; [vm_compute; reflexivity|]. split; [reflexivity|]. split; [reflexivity|]. vm_compute. discriminate.
Qed.
(** C27 without its hypotheses is false: when the configuration cannot be reloaded (the application set PAM_SERVICE)
    while the update phase is suspended, the next pam_chauthtok resumes with a preliminary phase that begins in the middle ... *)
Theorem phases_follow_protocol_refuted_by_reload : exists l,
  let r := demo l (demo_start [0; 0; 0; 31; 0; 0; 0]) in
  answers_of r = Some [31; 0; 26; 0; 0] /\ place_of (h_log (the_hs (handle_of r))) = None /\
  rev (dones (h_log (the_hs (handle_of r)))) =
    [EvDone 6 16384 false 0; EvDone 6 8192 false 31; EvDone 6 16384 true 0; EvDone 6 8192 false 0].
Proof.
  exists [mg MChauthtok; AOp (OSet 1 (AStr (lit "bad")) false false); mg MChauthtok; AOp (OSet 1 (AStr (lit "login")) false false); mg MChauthtok].
  cbv zeta. split; [vm_compute; reflexivity|]. split; vm_compute; reflexivity.
Qed.
(** ... and likewise when the audit record of the suspended call could not be written. *)
Theorem phases_follow_protocol_refuted_by_audit : exists l,
  let r := demo l (demo_start [0; 0; 0; 31; 0; 0; 0]) in
  answers_of r = Some [4; 0] /\ place_of (h_log (the_hs (handle_of r))) = None /\
  rev (dones (h_log (the_hs (handle_of r)))) =
    [EvDone 6 16384 false 0; EvDone 6 8192 false 4; EvDone 6 16384 true 0; EvDone 6 8192 false 0].
Proof.
  exists [AMgmt MChauthtok quiet_env broken_audit 0; mg MChauthtok].
  cbv zeta. split; [vm_compute; reflexivity|]. split; vm_compute; reflexivity.
Qed.
(** C41 is false: a call suspended for one service and resumed for another skips modules of the second that were
    never run.  Here "strict" begins with a required module that always denies. *)
Theorem resumed_call_runs_every_module_refuted :
  answers_of (demo [mg MAuthenticate; AOp (OSet 1 (AStr (lit "strict")) false false); mg MAuthenticate] (demo_start [31; 0])) = Some [31; 0; 0] /\
  answers_of (demo [AOp (OSet 1 (AStr (lit "strict")) false false); mg MAuthenticate] (demo_start [0; 0])) = Some [0; 7].
Proof. split; vm_compute; reflexivity. Qed.

Print Assumptions application_blind_to_passwords.
Print Assumptions control_is_back.
Print Assumptions application_cannot_read_or_set_passwords.
Print Assumptions no_password_survives.
Print Assumptions fresh_call_starts_without_password.
Print Assumptions update_only_after_prelim.
Print Assumptions phases_follow_protocol.
Print Assumptions management_refused_to_modules.
Print Assumptions module_calls_have_no_effect.
Print Assumptions no_password_survives_refuted_by_flags.
Print Assumptions phases_follow_protocol_refuted_by_reload.
Print Assumptions phases_follow_protocol_refuted_by_audit.
Print Assumptions resumed_call_runs_every_module_refuted.
