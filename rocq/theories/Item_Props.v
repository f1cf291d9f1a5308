(** C25, C26, C42: items, pam_get_user, pam_get_authtok. *)
From Coq Require Import String Ascii List Arith ZArith Lia Bool.
From Verif Require Import Base Delay_Model Item_Model.
Import ListNotations.
Local Open Scope Z_scope.

(** ** Items *)
Section ItemSpec.
Context {X : Type}.
(** The value of an item, whoever asks. *)
Definition item (ty : Z) (s : hs X) : ival := snd (get_item ty (set_module true s)).
(** Everything in the handle that is not an item. *)
Definition rest (s : hs X) := (h_module s, h_want s, h_saved s, h_update s, h_args s, h_choice s, h_verified s, h_delay s, h_ub s, h_log s, h_world s).
End ItemSpec.

(** An X authentication record: of the data only the first datalen bytes count. *)
Definition shown (x : xauth_t) : xauth_t :=
  mkX (x_namelen x) (x_name x) (x_datalen x) (match x_data x with Some d => Some (firstn (Z.to_nat (x_datalen x)) d) | None => None end).
(** The value a pointer denotes for an item that now has value [cur]. *)
Definition denotes (a : arg) (cur : ival) : ival :=
  match a with
  | ANull => VNull
  | ASame => cur
  | AStr s => VStr s
  | AInside n => match cur with VStr c => VStr (skipn n c) | v => v end
  | AConv c => VConv c
  | AFn f => VFn f
  | AXauth x => VXauth (shown x)
  | AXCopy => match cur with VXauth x => VXauth (shown x) | v => v end
  end.
(** What is stored of a value: the service name in lower case. *)
Definition stored (ty : Z) (v : ival) : ival := if ty =? 1 then match v with VStr s => VStr (map tolower s) | v => v end else v.

Ltac all_types ty :=
  destruct (Z.eqb_spec ty 1) as [->|?]; [|destruct (Z.eqb_spec ty 2) as [->|?]; [|destruct (Z.eqb_spec ty 3) as [->|?]; [|destruct (Z.eqb_spec ty 4) as [->|?]; [|
  destruct (Z.eqb_spec ty 5) as [->|?]; [|destruct (Z.eqb_spec ty 6) as [->|?]; [|destruct (Z.eqb_spec ty 7) as [->|?]; [|destruct (Z.eqb_spec ty 8) as [->|?]; [|
  destruct (Z.eqb_spec ty 9) as [->|?]; [|destruct (Z.eqb_spec ty 10) as [->|?]; [|destruct (Z.eqb_spec ty 11) as [->|?]; [|destruct (Z.eqb_spec ty 12) as [->|?]; [|
  destruct (Z.eqb_spec ty 13) as [->|?]]]]]]]]]]]]].

Lemma get_put : forall ty v t cur, get_str ty t = Some cur -> get_str ty (put_str ty v t) = Some v.
Proof.
  intros ty v t cur H. unfold get_str, put_str in *. all_types ty; cbn in *; try reflexivity; try discriminate.
Qed.
Lemma get_put_other : forall ty ty' v t, ty' <> ty -> get_str ty' (put_str ty v t) = get_str ty' t.
Proof.
  intros ty ty' v t H. unfold get_str, put_str.
  all_types ty'; cbn; repeat match goal with |- context [ty =? ?k] => rewrite (proj2 (Z.eqb_neq ty k)) by congruence end; try reflexivity.
Qed.
Lemma put_put : forall ty v w t, put_str ty v (put_str ty w t) = put_str ty v t.
Proof. intros ty v w t. unfold put_str. cbn. f_equal; destruct (ty =? _); reflexivity. Qed.

Lemma try_set_ok : forall oom ty a t t', try_set oom ty a t = Ok (Some t') ->
  exists cur v, get_str ty t = Some cur /\ pointee a cur = Some v /\ t' = (if same_pointer a cur then t else put_str ty v t).
Proof.
  intros oom ty a t t' H. unfold try_set in H. destruct (get_str ty t) as [cur|]; [|discriminate].
  destruct (pointee a cur) as [v|] eqn:E; [|discriminate]. exists cur, v. split; [reflexivity|]. split; [exact E|].
  destruct (same_pointer a cur); [congruence|]. destruct v; [destruct oom; [discriminate|]|]; congruence.
Qed.
Lemma try_set_value : forall oom ty a t t', try_set oom ty a t = Ok (Some t') ->
  exists cur v, get_str ty t = Some cur /\ pointee a cur = Some v /\ get_str ty t' = Some v /\ (forall ty', ty' <> ty -> get_str ty' t' = get_str ty' t).
Proof.
  intros oom ty a t t' H. destruct (try_set_ok _ _ _ _ _ H) as (cur & v & G & P & ->). exists cur, v. split; [exact G|]. split; [exact P|].
  destruct (same_pointer a cur) eqn:S.
  - split; [|auto]. rewrite G. f_equal. destruct a as [| |s0|n0|c0|f0|x0|]; cbn in *; try discriminate; try congruence.
    + destruct cur; [discriminate|congruence].
    + destruct cur as [c|]; [|discriminate]. apply Nat.eqb_eq in S. subst n0. cbn in P. injection P as <-. reflexivity.
  - split; [eapply get_put; exact G|]. intros ty' N. apply get_put_other. exact N.
Qed.

Section ItemTheorems.
Context {X : Type}.
Implicit Types s : hs X.

Lemma denotes_pointee : forall a cur v, pointee a cur = Some v -> denotes a (of_str cur) = of_str v.
Proof.
  intros a cur v H. destruct a as [| |s0|n0|c0|f0|x0|]; cbn in *; try (injection H as <-; reflexivity); try discriminate.
  destruct cur as [c|]; [|discriminate]. destruct (n0 <=? length c)%nat; [|discriminate]. injection H as <-. reflexivity.
Qed.

Lemma item_str : forall ty s v, get_str ty (h_str s) = Some v -> item ty s = of_str v.
Proof.
  intros ty s v H. unfold item, get_item. change (h_str (set_module true s)) with (h_str s). change (h_module (set_module true s)) with true.
  destruct ((ty =? 6) || (ty =? 7)); [rewrite H; reflexivity|].
  destruct (Z.eqb_spec ty 5) as [->|N5]; [discriminate|]. destruct (Z.eqb_spec ty 10) as [->|N10]; [discriminate|]. destruct (Z.eqb_spec ty 12) as [->|N12]; [discriminate|].
  rewrite H. reflexivity.
Qed.

Lemma item_frame : forall ty s s', get_str ty (h_str s') = get_str ty (h_str s) ->
  (ty = 5 -> h_conv s' = h_conv s) -> (ty = 10 -> h_fn s' = h_fn s) -> (ty = 12 -> h_xauth s' = h_xauth s) -> item ty s' = item ty s.
Proof.
  intros ty s s' H H5 H10 H12. unfold item, get_item. cbn [h_module set_module h_str h_conv h_fn h_xauth]. rewrite H.
  destruct ((ty =? 6) || (ty =? 7)); [reflexivity|].
  destruct (Z.eqb_spec ty 5) as [->|N5]; [rewrite H5; reflexivity|]. destruct (Z.eqb_spec ty 10) as [->|N10]; [rewrite H10; reflexivity|].
  destruct (Z.eqb_spec ty 12) as [->|N12]; [rewrite H12; reflexivity|]. reflexivity.
Qed.

(** C25.  A successful pam_set_item makes the item what the pointer given denoted, except that a pointer
    into the middle of a stored password gives the empty string; no other item and nothing else in the handle
    changes.  A failed one changes nothing, except that a password being replaced becomes empty and an X
    authentication record is dropped. *)
Theorem set_item_effect : forall oom oom2 ty a s rv s', set_item oom oom2 ty a s = Ok (rv, s') ->
  rest s' = rest s /\
  (forall ty', ty' <> ty -> item ty' s' = item ty' s) /\
  (rv = 0 -> item ty s' = stored ty (denotes a (item ty s)) \/
             ((ty = 6 \/ ty = 7) /\ exists n, (0 < n)%nat /\ a = AInside n /\ item ty s' = VStr [])) /\
  (rv <> 0 -> item ty s' = item ty s \/
             ((ty = 6 \/ ty = 7) /\ rv = 5 /\ oom = true /\ item ty s <> VNull /\ item ty s' = VStr []) \/
             (ty = 12 /\ rv = 5 /\ item ty s' = VXauth (mkX 0 None 0 None))).
Proof.
  intros oom oom2 ty a s rv s' H. unfold set_item in H.
  destruct (Z.eqb_spec ty 1) as [->|N1].
  { assert (G : forall oom a s rv s', bind (try_set oom 1 a (h_str s)) (fun r => match r with None => Ok (5, s)
        | Some t => match s_service t with None => UB | Some n => Ok (0, set_strs (put_str 1 (Some (map tolower n)) t) s) end end) = Ok (rv, s') ->
        rest s' = rest s /\ (forall ty', ty' <> 1 -> item ty' s' = item ty' s) /\ (rv = 0 -> item 1 s' = stored 1 (denotes a (item 1 s))) /\ (rv <> 0 -> item 1 s' = item 1 s)).
    { clear. intros oom a s rv s' H. destruct (try_set oom 1 a (h_str s)) as [[t|]| |] eqn:E; cbn [bind] in H; try discriminate.
      - destruct (try_set_value _ _ _ _ _ E) as (cur & v & G & P & G' & GO). cbn in G'. injection G' as G'. rewrite G' in H.
        destruct v as [n|]; [|discriminate]. injection H as <- <-. split; [reflexivity|]. split; [|split; [|congruence]].
        + intros ty' N. apply item_frame; auto. cbn [h_str set_strs]. rewrite get_put_other by exact N. apply GO. exact N.
        + intros _. rewrite (item_str 1 s cur G). rewrite (denotes_pointee _ _ _ P). reflexivity.
      - injection H as <- <-. split; [reflexivity|]. split; [auto|]. split; [discriminate|]. auto. }
    assert (LD : forall ty', item ty' (set_loaded false s) = item ty' s) by reflexivity.
    assert (DOIT : forall a', bind (try_set oom 1 a' (h_str (set_loaded false s))) (fun r => match r with None => Ok (5, set_loaded false s)
        | Some t => match s_service t with None => UB | Some n => Ok (0, set_strs (put_str 1 (Some (map tolower n)) t) (set_loaded false s)) end end) = Ok (rv, s') ->
        a' = a ->
        rest s' = rest s /\ (forall ty', ty' <> 1 -> item ty' s' = item ty' s) /\
        (rv = 0 -> item 1 s' = stored 1 (denotes a (item 1 s)) \/ ((1 = 6 \/ 1 = 7) /\ exists n, (0 < n)%nat /\ a = AInside n /\ item 1 s' = VStr [])) /\
        (rv <> 0 -> item 1 s' = item 1 s \/ ((1 = 6 \/ 1 = 7) /\ rv = 5 /\ oom = true /\ item 1 s <> VNull /\ item 1 s' = VStr []) \/ (1 = 12 /\ rv = 5 /\ item 1 s' = VXauth (mkX 0 None 0 None)))).
    { intros a' H' ->. apply G in H'. rewrite !LD in H'. destruct H' as (R & O & S & F). split; [exact R|]. split; [intros; rewrite O by assumption; apply LD|]. split; [intros; left; auto|intros; left; auto]. }
    destruct a as [| |s0|n0|c0|f0|x0|].
    - injection H as <- <-. split; [reflexivity|]. split; [auto|]. split; [discriminate|auto].
    - destruct (s_service (h_str s)) as [n|] eqn:E.
      + injection H as <- <-. split; [reflexivity|]. split; [|split; [|congruence]].
        * intros ty' N. apply item_frame; auto. cbn [h_str set_strs set_loaded]. apply get_put_other. exact N.
        * intros _. left. unfold item, get_item, stored, denotes. cbn. rewrite E. reflexivity.
      + injection H as <- <-. split; [reflexivity|]. split; [auto|]. split; [discriminate|auto].
    - exact (DOIT (AStr s0) H eq_refl).
    - exact (DOIT (AInside n0) H eq_refl).
    - exact (DOIT (AConv c0) H eq_refl).
    - exact (DOIT (AFn f0) H eq_refl).
    - exact (DOIT (AXauth x0) H eq_refl).
    - exact (DOIT AXCopy H eq_refl). }
  assert (ST : forall z, stored ty z = z) by (intros z; unfold stored; rewrite (proj2 (Z.eqb_neq ty 1) N1); reflexivity).
  assert (PLAIN : forall fu, (forall s, h_str (fu s) = h_str s /\ h_conv (fu s) = h_conv s /\ h_fn (fu s) = h_fn s /\ h_xauth (fu s) = h_xauth s /\ rest (fu s) = rest s) ->
     bind (try_set oom ty a (h_str s)) (fun r => match r with None => Ok (5, s) | Some t => Ok (0, fu (set_strs t s)) end) = Ok (rv, s') ->
        rest s' = rest s /\ (forall ty', ty' <> ty -> item ty' s' = item ty' s) /\ (rv = 0 -> item ty s' = denotes a (item ty s)) /\ (rv <> 0 -> item ty s' = item ty s)).
  { clear H. intros fu HF H. destruct (try_set oom ty a (h_str s)) as [[t|]| |] eqn:E; cbn [bind] in H; try discriminate.
    - destruct (try_set_value _ _ _ _ _ E) as (cur & v & G & P & G' & GO). injection H as <- <-.
      destruct (HF (set_strs t s)) as (F1 & F2 & F3 & F4 & F5). split; [rewrite F5; reflexivity|]. split; [|split; [|congruence]].
      + intros ty' N. apply item_frame; [rewrite F1; apply GO; exact N|rewrite F2; auto|rewrite F3; auto|rewrite F4; auto].
      + intros _. rewrite (item_str ty s cur G). rewrite (denotes_pointee _ _ _ P). apply item_str. rewrite F1. exact G'.
    - injection H as <- <-. split; [reflexivity|]. split; [auto|]. split; [discriminate|]. auto. }
  destruct ((ty =? 2) || (ty =? 9)) eqn:U.
  { destruct (PLAIN (set_fail_user 0)) as (R & O & S & F); [intros; repeat split|exact H|]. split; [exact R|]. split; [exact O|]. split; [intros; left; rewrite ST; auto|intros; left; auto]. }
  destruct ((ty =? 6) || (ty =? 7)) eqn:T.
  { assert (TY : ty = 6 \/ ty = 7) by (apply orb_true_iff in T; rewrite !Z.eqb_eq in T; exact T).
    destruct (h_module s); [|injection H as <- <-; split; [reflexivity|]; split; [auto|]; split; [discriminate|auto]].
    destruct (get_str ty (h_str s)) as [cur|] eqn:G; [|discriminate].
    destruct (same_pointer a cur) eqn:SP.
    { injection H as <- <-. split; [reflexivity|]. split; [auto|]. split; [|congruence]. intros _. left. rewrite ST, (item_str ty s cur G).
      destruct a as [| |s0|n0|c0|f0|x0|]; cbn in SP |- *; try discriminate; try reflexivity.
      - destruct cur; [discriminate|reflexivity].
      - destruct cur as [c|]; [|discriminate]. apply Nat.eqb_eq in SP. subst n0. reflexivity. }
    pose proof (get_put ty (blank cur) (h_str s) cur G) as GB.
    destruct (try_set oom ty (blank_arg a cur) (put_str ty (blank cur) (h_str s))) as [[t|]| |] eqn:E; cbn [bind] in H; try discriminate.
    - destruct (try_set_value _ _ _ _ _ E) as (cur' & v & G0 & P & G' & GO). rewrite GB in G0. injection G0 as <-.
      injection H as <- <-. split; [reflexivity|]. split; [|split; [|congruence]].
      + intros ty' N. apply item_frame; auto. cbn [h_str set_strs]. rewrite GO by exact N. apply get_put_other. exact N.
      + intros _. rewrite ST, (item_str ty s cur G). rewrite (item_str ty (set_strs t s) v G').
        destruct a as [| |s0|n0|c0|f0|x0|]; cbn in P, SP |- *; try discriminate.
        * left. injection P as <-. reflexivity.
        * left. injection P as <-. reflexivity.
        * right. split; [exact TY|]. exists n0. destruct cur as [c|]; [|discriminate]. destruct (n0 <=? length c)%nat eqn:LE; cbn in P.
          { injection P as <-. split; [apply Nat.eqb_neq in SP; lia|]. split; reflexivity. }
          { destruct (n0 <=? 0)%nat eqn:L0; [|discriminate]. apply Nat.leb_le in L0. apply Nat.leb_gt in LE. lia. }
    - injection H as <- <-. split; [reflexivity|]. split; [|split; [discriminate|]].
      + intros ty' N. apply item_frame; auto. cbn [h_str set_strs]. apply get_put_other. exact N.
      + intros _. rewrite (item_str ty s cur G). rewrite (item_str ty (set_strs _ s) (blank cur) GB).
        destruct cur as [c|]; [|left; reflexivity]. right; left. split; [exact TY|]. split; [reflexivity|].
        split; [|split; [discriminate|reflexivity]]. unfold try_set in E. rewrite GB in E. destruct (pointee _ _) as [v|]; [|discriminate].
        match type of E with context [same_pointer ?x ?y] => destruct (same_pointer x y) end; [discriminate|]. destruct v; [|discriminate]. destruct oom; [reflexivity|discriminate]. }
  destruct (Z.eqb_spec ty 5) as [->|N5].
  { assert (ST5 : forall c, (if oom then Ok (5, s) else Ok (0, set_fail_user 0 (set_conv (Some c) s))) = Ok (rv, s') -> denotes a (item 5 s) = VConv c ->
        rest s' = rest s /\ (forall ty', ty' <> 5 -> item ty' s' = item ty' s) /\ (rv = 0 -> item 5 s' = denotes a (item 5 s)) /\ (rv <> 0 -> item 5 s' = item 5 s)).
    { clear H. intros c H D. destruct oom; injection H as <- <-; (split; [reflexivity|]); (split; [|split; [|auto; congruence]]); try discriminate.
      - intros ty' N. reflexivity.
      - intros ty' N. apply item_frame; auto. congruence.
      - intros _. rewrite D. reflexivity. }
    assert (FIN : forall c, (if oom then Ok (5, s) else Ok (0, set_fail_user 0 (set_conv (Some c) s))) = Ok (rv, s') -> denotes a (item 5 s) = VConv c ->
        rest s' = rest s /\ (forall ty', ty' <> 5 -> item ty' s' = item ty' s) /\
        (rv = 0 -> item 5 s' = stored 5 (denotes a (item 5 s)) \/ ((5 = 6 \/ 5 = 7) /\ exists n, (0 < n)%nat /\ a = AInside n /\ item 5 s' = VStr [])) /\
        (rv <> 0 -> item 5 s' = item 5 s \/ ((5 = 6 \/ 5 = 7) /\ rv = 5 /\ oom = true /\ item 5 s <> VNull /\ item 5 s' = VStr []) \/ (5 = 12 /\ rv = 5 /\ item 5 s' = VXauth (mkX 0 None 0 None)))).
    { intros c HH D. destruct (ST5 c HH D) as (R & O & S & F). split; [exact R|]. split; [exact O|]. split; [intros; left; rewrite ST; auto|intros; left; auto]. }
    destruct a as [| |s0|n0|c0|f0|x0|]; try discriminate.
    - injection H as <- <-. split; [reflexivity|]. split; [auto|]. split; [discriminate|auto].
    - destruct (h_conv s) as [c|] eqn:HC.
      + apply (FIN c H). unfold item, get_item. cbn. rewrite HC. reflexivity.
      + injection H as <- <-. split; [reflexivity|]. split; [auto|]. split; [discriminate|auto].
    - exact (FIN c0 H eq_refl). }
  destruct (Z.eqb_spec ty 10) as [->|N10].
  { destruct a as [| |s0|n0|c0|f0|x0|]; try discriminate; injection H as <- <-; (split; [reflexivity|]); (split; [|split; [|congruence]]).
    all: try (intros ty' N; apply item_frame; auto; congruence).
    all: intros _; left; reflexivity. }
  destruct (Z.eqb_spec ty 12) as [->|N12].
  { assert (SX : forall x, match x_name x with
      | None => Ok (5, set_xauth no_xauth s)
      | Some n => if oom then Ok (5, set_xauth no_xauth s) else match x_data x with
               | None => Ok (5, set_xauth no_xauth s)
               | Some d => if (x_datalen x <? 0) || (Z.of_nat (length d) <? x_datalen x) then UB
                   else if oom2 then Ok (5, set_xauth no_xauth s)
                   else Ok (0, set_xauth (mkX (x_namelen x) (Some n) (x_datalen x) (Some (firstn (Z.to_nat (x_datalen x)) d))) s) end end = Ok (rv, s') ->
      rest s' = rest s /\ (forall ty', ty' <> 12 -> item ty' s' = item ty' s) /\
      ((rv = 0 /\ item 12 s' = denotes (AXauth x) VNull) \/ (rv = 5 /\ item 12 s' = VXauth (mkX 0 None 0 None)))).
    { clear H. intros x H.
      assert (Z0 : rest (set_xauth no_xauth s) = rest s /\ (forall ty', ty' <> 12 -> item ty' (set_xauth no_xauth s) = item ty' s)).
      { split; [reflexivity|]. intros ty' N. apply item_frame; auto. congruence. }
      destruct Z0 as (Z1 & Z2).
      destruct (x_name x) as [n|] eqn:EN; [|injection H as <- <-; split; [exact Z1|]; split; [exact Z2|]; right; split; reflexivity].
      destruct oom; [injection H as <- <-; split; [exact Z1|]; split; [exact Z2|]; right; split; reflexivity|].
      destruct (x_data x) as [d|] eqn:ED; [|injection H as <- <-; split; [exact Z1|]; split; [exact Z2|]; right; split; reflexivity].
      match type of H with context [?b1 || ?b2] => destruct (b1 || b2) end; [discriminate|].
      destruct oom2; [injection H as <- <-; split; [exact Z1|]; split; [exact Z2|]; right; split; reflexivity|].
      injection H as <- <-. split; [reflexivity|]. split; [intros ty' N; apply item_frame; auto; congruence|]. left. split; [reflexivity|].
      unfold item, get_item, denotes. cbn. unfold shown. rewrite EN, ED. reflexivity. }
    destruct a as [| |s0|n0|c0|f0|x0|]; try discriminate.
    - injection H as <- <-. split; [reflexivity|]. split; [auto|]. split; [|congruence]. intros _. left. reflexivity.
    - destruct (SX x0 H) as (R & O & [[-> V]|[-> V]]); (split; [exact R|]); (split; [exact O|]); (split; [intros E0|intros E0]); try congruence.
      + left. exact V.
      + right; right. auto.
    - destruct (negb (x_namelen (h_xauth s) =? 0) || negb (x_datalen (h_xauth s) =? 0)) eqn:NZ; [discriminate|].
      apply orb_false_iff in NZ. destruct NZ as [NZ1 NZ2]. apply negb_false_iff, Z.eqb_eq in NZ2.
      destruct (SX (h_xauth s) H) as (R & O & [[-> V]|[-> V]]); (split; [exact R|]); (split; [exact O|]); (split; [intros E0|intros E0]); try congruence.
      + left. rewrite V. reflexivity.
      + right; right. auto. }
  destruct ((ty =? 3) || (ty =? 8) || (ty =? 4) || (ty =? 11) || (ty =? 13)) eqn:P.
  { destruct (PLAIN (fun s => s)) as (R & O & S & F); [intros; repeat split|exact H|]. split; [exact R|]. split; [exact O|]. split; [intros; left; rewrite ST; auto|intros; left; auto]. }
  injection H as <- <-. split; [reflexivity|]. split; [auto|]. split; [discriminate|auto].
Qed.

(** pam_get_item gives the item, or refuses. *)
Theorem get_item_answers : forall ty s,
  get_item ty s = if existsb (Z.eqb ty) [1; 2; 3; 4; 5; 8; 9; 10; 11; 12; 13] || (existsb (Z.eqb ty) [6; 7] && h_module s)
                  then (0, item ty s) else (29, VNull).
Proof.
  intros ty s. unfold item, get_item, get_str. cbn [h_module set_module h_str h_conv h_fn h_xauth existsb].
  all_types ty; cbn [Z.eqb Pos.eqb orb andb]; try reflexivity; try (destruct (h_module s); reflexivity).
Qed.

(** Histories of pam_set_item by applications and modules, with the values given for each item, newest first. *)
Inductive used (s0 : hs X) : list (Z * ival) -> hs X -> Prop :=
| us_start : used s0 [] s0
| us_set : forall l s oom oom2 ty a s', used s0 l s -> set_item oom oom2 ty a s = Ok (0, s') ->
    (ty = 6 \/ ty = 7 -> forall n, a <> AInside (S n)) -> used s0 ((ty, stored ty (denotes a (item ty s))) :: l) s'
| us_failed : forall l s oom oom2 ty a rv s', used s0 l s -> set_item oom oom2 ty a s = Ok (rv, s') -> rv <> 0 ->
    ty <> 6 -> ty <> 7 -> ty <> 12 -> used s0 l s'
| us_caller : forall l s b, used s0 l s -> used s0 l (set_module b s).
Fixpoint latest (ty : Z) (l : list (Z * ival)) : option ival :=
  match l with [] => None | (t, v) :: l => if t =? ty then Some v else latest ty l end.

(** C25: every item has the value last given for it. *)
Theorem items_hold_last_value : forall s0 l s ty, used s0 l s ->
  item ty s = match latest ty l with Some v => v | None => item ty s0 end.
Proof.
  intros s0 l s ty H. induction H as [|l s oom oom2 t a s' H IH E HA|l s oom oom2 t a rv s' H IH E HR N6 N7 N12|l s b H IH].
  - reflexivity.
  - destruct (set_item_effect _ _ _ _ _ _ _ E) as (_ & O & S & _). cbn [latest]. destruct (Z.eqb_spec t ty) as [->|N].
    + destruct (S eq_refl) as [V|(T & n & NP & -> & _)]; [exact V|]. destruct n; [lia|]. exfalso. exact (HA T n eq_refl).
    + rewrite O by congruence. exact IH.
  - destruct (set_item_effect _ _ _ _ _ _ _ E) as (_ & O & _ & F). destruct (Z.eq_dec ty t) as [->|N].
    + destruct (F HR) as [V|[[[T|T] _]|[T _]]]; congruence.
    + rewrite O by exact N. exact IH.
  - exact IH.
Qed.
End ItemTheorems.

(** A handle for the examples: conversation function 1, no items. *)
Definition handle0 (module : bool) : hs nat :=
  mkHS module (mkS (Some (lit "login")) None None None None None None None None None) (Some (mkConv (Some 1%nat) 0)) None no_xauth
    0 false None false true [] 0 false (mkFD false 0 0) false [] 0%nat.
Definition after (r : res (Z * hs nat)) : hs nat := match r with Ok (_, s) => s | _ => handle0 true end.
Example items_example :
  let s1 := after (set_item false false 6 (AStr (lit "secret")) (handle0 true)) in
  let s2 := after (set_item false false 1 (AStr (lit "SSHD")) s1) in
  let s3 := after (set_item true false 3 (AStr (lit "tty1")) s2) in
  set_item true false 3 (AStr (lit "tty1")) s2 = Ok (5, s3) /\
  used (handle0 true) [(1, VStr (lit "sshd")); (6, VStr (lit "secret"))] s3 /\
  get_item 6 s3 = (0, VStr (lit "secret")) /\ get_item 1 s3 = (0, VStr (lit "sshd")) /\ get_item 3 s3 = (0, VNull).
Proof.
  intros s1 s2 s3. split; [vm_compute; reflexivity|]. split; [|repeat split; vm_compute; reflexivity].
  apply (us_failed (handle0 true) _ s2 true false 3 (AStr (lit "tty1")) 5); [|vm_compute; reflexivity|discriminate|discriminate|discriminate|discriminate].
  apply (us_set (handle0 true) [(6, VStr (lit "secret"))] s1 false false 1 (AStr (lit "SSHD")) s2); [|vm_compute; reflexivity|intros [|]; discriminate].
  apply (us_set (handle0 true) [] (handle0 true) false false 6 (AStr (lit "secret")) s1); [constructor|vm_compute; reflexivity|discriminate].
Qed.

(** "Failed sets leave the item unchanged" is false of passwords: when memory is short the old one is lost and the
    item is the empty string; and a pointer into the stored password stores the empty string. *)
Theorem failed_set_leaves_item_refuted : exists (s s' : hs nat),
  item 6 s = VStr (lit "secret") /\ set_item true false 6 (AStr (lit "other")) s = Ok (5, s') /\ get_item 6 s' = (0, VStr []).
Proof.
  exists (set_strs (put_str 6 (Some (lit "secret")) (h_str (handle0 true))) (handle0 true)). eexists. split; [vm_compute; reflexivity|].
  split; vm_compute; reflexivity.
Qed.
Theorem set_password_from_inside_refuted : exists (s s' : hs nat),
  item 6 s = VStr (lit "secret") /\ set_item false false 6 (AInside 3) s = Ok (0, s') /\ get_item 6 s' = (0, VStr []).
Proof.
  exists (set_strs (put_str 6 (Some (lit "secret")) (h_str (handle0 true))) (handle0 true)). eexists. split; [vm_compute; reflexivity|].
  split; vm_compute; reflexivity.
Qed.

(** ** pam_get_user *)
Section User.
Context {X : Type}.
Variable converse : nat -> X -> Z -> cstr -> X * (Z * option (option cstr)).
Implicit Types s : hs X.

(** The prompt used. *)
Definition user_prompt (p : option cstr) (s : hs X) : cstr :=
  match p, item 9 s with Some p, _ => p | None, VStr p => p | None, _ => lit "login:" end.
(** What the conversation function [fn] answers now. *)
Definition reply (fn : nat) (text : cstr) (s : hs X) := snd (converse fn (h_world s) 2 text).

(** A known user is returned, nobody is asked and nothing changes. *)
Theorem known_user_returned : forall oom1 oom2 p s u, h_conv s <> None -> item 2 s = VStr u ->
  get_user converse oom1 oom2 p s = Ok (0, Some u, s).
Proof.
  intros oom1 oom2 p s u HC H. unfold get_user. destruct (h_conv s) as [c|]; [|congruence].
  unfold item, get_item in H. cbn in H. destruct (s_user (h_str s)); [|discriminate]. cbn in H. congruence.
Qed.

(** Everything but the conversation's world and log stays as it was, apart from what pam_get_user remembers. *)
Definition same_but_memory (s s' : hs X) : Prop :=
  (forall ty, ty <> 2 -> item ty s' = item ty s) /\
  (h_module s', h_update s', h_loaded s', h_args s', h_choice s', h_verified s', h_delay s', h_ub s') =
  (h_module s, h_update s, h_loaded s, h_args s, h_choice s, h_verified s, h_delay s, h_ub s).

(** When it asks: with which text, and what becomes of the answer. *)
Definition outcome_of (rv : Z) (resp : option (option cstr)) : Z + (Z + cstr) :=
  if rv =? 30 then inl 30
  else if rv =? 0 then match resp with Some (Some r) => inr (inr r) | _ => inr (inl 19) end
  else inr (inl (if (rv =? 5) then 5 else 19)).

Lemma item_user : forall s, item 2 s = of_str (s_user (h_str s)).
Proof. reflexivity. Qed.

(** C26: who is not known yet is asked for, once, with the right text; the answer becomes PAM_USER; a definitive
    failure and a suspension are remembered. *)
Theorem user_asked_for : forall oom1 oom2 p s rv u s', item 2 s = VNull -> h_fail_user s = 0 ->
  (h_want s = false \/ h_saved s = Some (user_prompt p s)) ->
  forall c fn, h_conv s = Some c -> cv_fn c = Some fn ->
  get_user converse oom1 oom2 p s = Ok (rv, u, s') ->
  h_log s' = EvConv fn 2 (user_prompt p s) :: h_log s /\ h_world s' = fst (converse fn (h_world s) 2 (user_prompt p s)) /\
  same_but_memory s s' /\ h_conv s' = h_conv s /\
  match outcome_of (fst (reply fn (user_prompt p s) s)) (snd (reply fn (user_prompt p s) s)) with
  | inl a => rv = a /\ u = None /\ item 2 s' = VNull /\ h_fail_user s' = 0 /\ h_want s' = true /\
             h_saved s' = (if oom1 then None else Some (user_prompt p s))
  | inr (inl e) => rv = e /\ u = None /\ item 2 s' = VNull /\ h_fail_user s' = e /\ h_want s' = false
  | inr (inr r) => h_want s' = false /\ h_fail_user s' = 0 /\
      if oom2 then rv = 5 /\ u = None /\ item 2 s' = VNull else rv = 0 /\ u = Some r /\ item 2 s' = VStr r
  end.
Proof.
  intros oom1 oom2 p s rv u s' HU HF HW c fn HC HFN H. unfold get_user in H. rewrite HC in H. rewrite item_user in HU.
  destruct (s_user (h_str s)) as [x|] eqn:EU; [discriminate|]. rewrite HF in H. cbn [Z.eqb negb] in H.
  assert (UP : match p with Some p0 => p0 | None => match s_prompt (h_str s) with Some p0 => p0 | None => lit "login:" end end = user_prompt p s).
  { unfold user_prompt. change (item 9 s) with (of_str (s_prompt (h_str s))). destruct p; [reflexivity|]. destruct (s_prompt (h_str s)); reflexivity. }
  cbv zeta in H. rewrite UP in H. set (text := user_prompt p s) in *.
  (* the common part, from a state [s1] that is [s] with the memory of a suspension gone *)
  set (s1 := if h_want s then set_want false None s else s).
  assert (W1 : h_want s1 = false) by (unfold s1; destruct (h_want s) eqn:E; [reflexivity|exact E]).
  assert (E1 : forall ty, item ty s1 = item ty s) by (intros; unfold s1; destruct (h_want s); reflexivity).
  assert (K1 : h_str s1 = h_str s /\ h_conv s1 = h_conv s /\ h_fail_user s1 = h_fail_user s /\ h_log s1 = h_log s /\ h_world s1 = h_world s /\
    (h_module s1, h_update s1, h_loaded s1, h_args s1, h_choice s1, h_verified s1, h_delay s1, h_ub s1) = (h_module s, h_update s, h_loaded s, h_args s, h_choice s, h_verified s, h_delay s, h_ub s))
    by (unfold s1; destruct (h_want s); repeat split).
  destruct K1 as (KS & KC & KF & KL & KW & KR).
  assert (H1 : match cv_fn c with
    | None => UB
    | Some fn =>
      let '(rv, resp, s) := ask converse fn 2 text s1 in
      if ((if (rv =? 0) || (rv =? 5) || (rv =? 30) || (rv =? 19) then rv else 19) =? 30) then
        Ok ((if (rv =? 0) || (rv =? 5) || (rv =? 30) || (rv =? 19) then rv else 19), None, set_want true (if oom1 then None else Some text) s)
      else if ((if (rv =? 0) || (rv =? 5) || (rv =? 30) || (rv =? 19) then rv else 19) =? 0) then
        match resp with
        | Some (Some r) => bind (set_item oom2 false 2 (AStr r) s) (fun '(rv, s) => Ok (rv, s_user (h_str s), s))
        | _ => Ok (19, None, set_fail_user 19 s)
        end
      else Ok ((if (rv =? 0) || (rv =? 5) || (rv =? 30) || (rv =? 19) then rv else 19), None,
               set_fail_user (if (rv =? 0) || (rv =? 5) || (rv =? 30) || (rv =? 19) then rv else 19) s)
    end = Ok (rv, u, s')).
  { unfold s1. destruct HW as [HW|HW].
    - rewrite HW in H |- *. exact H.
    - destruct (h_want s); [|exact H]. rewrite HW in H. rewrite streq_refl in H. exact H. }
  clear H. rewrite HFN in H1. unfold ask in H1. unfold reply. rewrite KW in H1. destruct (converse fn (h_world s) 2 text) as [w [r0 resp]] eqn:EC. cbn [fst snd] in *.
  set (s2 := set_world w (set_log (EvConv fn 2 text :: h_log s1) s1)) in *.
  assert (SB : forall s3, h_str s3 = h_str s2 -> h_conv s3 = h_conv s2 -> h_fn s3 = h_fn s2 -> h_xauth s3 = h_xauth s2 ->
     (h_module s3, h_update s3, h_loaded s3, h_args s3, h_choice s3, h_verified s3, h_delay s3, h_ub s3) = (h_module s2, h_update s2, h_loaded s2, h_args s2, h_choice s2, h_verified s2, h_delay s2, h_ub s2) ->
     same_but_memory s s3).
  { intros s3 A1 A2 A3 A4 A5. split; [|rewrite A5; exact KR]. intros ty _. rewrite <- E1. transitivity (item ty s2); [|reflexivity].
    apply item_frame; [rewrite A1; reflexivity|intros; assumption|intros; assumption|intros; assumption]. }
  unfold outcome_of.
  assert (UN : forall s3, h_str s3 = h_str s2 -> item 2 s3 = VNull).
  { intros s3 A1. rewrite item_user, A1. unfold s2. cbn [h_str set_world set_log]. rewrite KS, EU. reflexivity. }
  destruct (Z.eqb_spec r0 30) as [->|N30].
  { cbn in H1. injection H1 as <- <- <-. split; [cbn; rewrite KL; reflexivity|]. split; [reflexivity|]. split; [apply SB; reflexivity|]. split; [exact KC|].
    split; [reflexivity|]. split; [reflexivity|]. split; [apply UN; reflexivity|]. split; [cbn; rewrite KF; exact HF|]. split; reflexivity. }
  destruct (Z.eqb_spec r0 0) as [->|N0].
  { cbn [orb Z.eqb] in H1. destruct resp as [[r|]|].
    - destruct oom2.
      + cbn in H1. injection H1 as <- <- <-. split; [cbn; rewrite KL; reflexivity|]. split; [reflexivity|]. split; [apply SB; reflexivity|]. split; [exact KC|].
        split; [exact W1|]. split; [cbn; rewrite KF; exact HF|]. split; [reflexivity|]. split; [rewrite KS; exact EU|apply UN; reflexivity].
      + cbn in H1. injection H1 as <- <- <-. split; [cbn; rewrite KL; reflexivity|]. split; [reflexivity|]. split; [|split; [exact KC|]].
        * split; [|exact KR]. intros ty N. rewrite <- E1. transitivity (item ty s2); [|reflexivity].
          apply item_frame; auto. cbn [h_str set_strs set_fail_user]. exact (get_put_other 2 ty (Some r) (h_str s2) N).
        * split; [exact W1|]. split; [reflexivity|]. split; [reflexivity|]. split; reflexivity.
    - injection H1 as <- <- <-. split; [cbn; rewrite KL; reflexivity|]. split; [reflexivity|]. split; [apply SB; reflexivity|]. split; [exact KC|].
      split; [reflexivity|]. split; [reflexivity|]. split; [apply UN; reflexivity|]. split; [reflexivity|exact W1].
    - injection H1 as <- <- <-. split; [cbn; rewrite KL; reflexivity|]. split; [reflexivity|]. split; [apply SB; reflexivity|]. split; [exact KC|].
      split; [reflexivity|]. split; [reflexivity|]. split; [apply UN; reflexivity|]. split; [reflexivity|exact W1]. }
  assert (CODE : (if (r0 =? 0) || (r0 =? 5) || (r0 =? 30) || (r0 =? 19) then r0 else 19) = (if r0 =? 5 then 5 else 19)).
  { rewrite (proj2 (Z.eqb_neq r0 0) N0), (proj2 (Z.eqb_neq r0 30) N30). destruct (Z.eqb_spec r0 5) as [->|N5]; [reflexivity|]. destruct (Z.eqb_spec r0 19) as [->|N19]; reflexivity. }
  rewrite (proj2 (Z.eqb_neq r0 0) N0), (proj2 (Z.eqb_neq r0 30) N30) in CODE. cbn [orb] in H1, CODE. rewrite CODE in H1.
  assert (NE : (if r0 =? 5 then 5 else 19) <> 30 /\ (if r0 =? 5 then 5 else 19) <> 0) by (destruct (r0 =? 5); split; discriminate).
  rewrite (proj2 (Z.eqb_neq _ 30) (proj1 NE)), (proj2 (Z.eqb_neq _ 0) (proj2 NE)) in H1.
  injection H1 as <- <- <-. split; [cbn; rewrite KL; reflexivity|]. split; [reflexivity|]. split; [apply SB; reflexivity|]. split; [exact KC|].
  split; [reflexivity|]. split; [reflexivity|]. split; [apply UN; reflexivity|]. split; [reflexivity|exact W1].
Qed.

(** A remembered failure is returned at once. *)
Theorem remembered_failure : forall oom1 oom2 p s, h_conv s <> None -> item 2 s = VNull -> h_fail_user s <> 0 ->
  get_user converse oom1 oom2 p s = Ok (h_fail_user s, None, s).
Proof.
  intros oom1 oom2 p s HC HU HF. unfold get_user. destruct (h_conv s) as [c|]; [|congruence]. rewrite item_user in HU.
  destruct (s_user (h_str s)); [discriminate|]. rewrite (proj2 (Z.eqb_neq _ 0) HF). reflexivity.
Qed.
(** A suspended pam_get_user can only be resumed with the same prompt. *)
Theorem other_prompt_aborts : forall oom1 oom2 p s, h_conv s <> None -> item 2 s = VNull -> h_fail_user s = 0 ->
  h_want s = true -> h_saved s <> Some (user_prompt p s) -> get_user converse oom1 oom2 p s = Ok (26, None, s).
Proof.
  intros oom1 oom2 p s HC HU HF HW HS. unfold get_user. destruct (h_conv s) as [c|]; [|congruence]. rewrite item_user in HU.
  destruct (s_user (h_str s)); [discriminate|]. rewrite HF. cbn [Z.eqb negb]. cbv zeta. rewrite HW. destruct (h_saved s) as [q|]; [|reflexivity].
  assert (UP : match p with Some p0 => p0 | None => match s_prompt (h_str s) with Some p0 => p0 | None => lit "login:" end end = user_prompt p s).
  { unfold user_prompt. change (item 9 s) with (of_str (s_prompt (h_str s))). destruct p; [reflexivity|]. destruct (s_prompt (h_str s)); reflexivity. }
  rewrite UP. rewrite (proj2 (streq_neq _ _)) by congruence. reflexivity.
Qed.

(** Calls of pam_get_user, and of pam_set_item for items other than PAM_USER, PAM_USER_PROMPT and PAM_CONV. *)
Inductive meanwhile (s0 : hs X) : hs X -> Prop :=
| mw_start : meanwhile s0 s0
| mw_user : forall s oom1 oom2 p r s', meanwhile s0 s -> get_user converse oom1 oom2 p s = Ok (r, s') -> meanwhile s0 s'
| mw_set : forall s oom oom2 ty a rv s', meanwhile s0 s -> set_item oom oom2 ty a s = Ok (rv, s') -> ty <> 2 -> ty <> 5 -> ty <> 9 -> meanwhile s0 s'
| mw_caller : forall s b, meanwhile s0 s -> meanwhile s0 (set_module b s).

Lemma set_item_keeps : forall oom oom2 ty a s rv s', set_item oom oom2 ty a s = Ok (rv, s') -> ty <> 2 -> ty <> 5 -> ty <> 9 ->
  h_fail_user s' = h_fail_user s /\ h_conv s' = h_conv s /\ item 2 s' = item 2 s /\ h_log s' = h_log s.
Proof.
  intros oom oom2 ty a s rv s' H N2 N5 N9. destruct (set_item_effect _ _ _ _ _ _ _ H) as (R & O & _).
  split; [|split; [|split; [apply O; congruence|unfold rest in R; congruence]]].
  - unfold set_item in H. rewrite (proj2 (Z.eqb_neq _ 2) N2), (proj2 (Z.eqb_neq _ 5) N5), (proj2 (Z.eqb_neq _ 9) N9) in H. cbn [orb] in H.
    repeat first [ match type of H with context [if ?b then _ else _] => destruct b end
                 | match type of H with context [match ?b with ANull => _ | _ => _ end] => destruct b end
                 | match type of H with context [bind ?b _] => destruct b; cbn [bind] in H end
                 | match type of H with context [match ?b with Some _ => _ | None => _ end] => destruct b end ];
    try discriminate; injection H as <- <-; reflexivity.
  - assert (K : item 5 s' = item 5 s) by (apply O; congruence). unfold item, get_item in K. cbn in K.
    destruct (h_conv s'), (h_conv s); congruence.
Qed.

(** C26: from then on a known user, or a definitive failure, is all pam_get_user answers, and nobody is asked. *)
Theorem answer_is_final : forall s0 s oom1 oom2 p, meanwhile s0 s -> h_conv s0 <> None ->
  (item 2 s0 <> VNull \/ h_fail_user s0 <> 0) ->
  h_log s = h_log s0 /\ exists r, get_user converse oom1 oom2 p s = Ok (r, s) /\
  r = match item 2 s0 with VStr u => (0, Some u) | _ => (h_fail_user s0, None) end.
Proof.
  intros s0 s oom1 oom2 p H HC HK.
  assert (G : forall s, h_conv s = h_conv s0 -> item 2 s = item 2 s0 -> h_fail_user s = h_fail_user s0 -> forall oom1 oom2 p,
     get_user converse oom1 oom2 p s = Ok (match item 2 s0 with VStr u => (0, Some u) | _ => (h_fail_user s0, None) end, s)).
  { clear H. intros s1 A1 A2 A3 o1 o2 p1. destruct (item 2 s0) as [|u|? |? |? ] eqn:E.
    - rewrite <- A3. apply remembered_failure; [congruence|exact A2|]. destruct HK as [HK|HK]; congruence.
    - apply known_user_returned; [congruence|exact A2].
    - exfalso. rewrite item_user in E. destruct (s_user (h_str s0)); discriminate.
    - exfalso. rewrite item_user in E. destruct (s_user (h_str s0)); discriminate.
    - exfalso. rewrite item_user in E. destruct (s_user (h_str s0)); discriminate. }
  assert (I : h_conv s = h_conv s0 /\ item 2 s = item 2 s0 /\ h_fail_user s = h_fail_user s0 /\ h_log s = h_log s0).
  { induction H as [|s o1 o2 p1 r s' H IH E|s oom oom2' ty a rv s' H IH E N2 N5 N9|s b H IH].
    - auto.
    - destruct IH as (A1 & A2 & A3 & A4). rewrite (G s A1 A2 A3) in E. injection E as <- <-. auto.
    - destruct IH as (A1 & A2 & A3 & A4). destruct (set_item_keeps _ _ _ _ _ _ _ E N2 N5 N9) as (B1 & B2 & B3 & B4). repeat split; congruence.
    - exact IH. }
  destruct I as (A1 & A2 & A3 & A4). split; [exact A4|]. eexists. split; [apply G; assumption|reflexivity].
Qed.

(** ** pam_get_authtok while a password is changed *)
(** The user typed [t] at a prompt without echo, with text [text]. *)
Definition typed_at (fn : nat) (text : cstr) (t : cstr) (w w' : X) : Prop := converse fn w 1 text = (w', (0, Some (Some t))).

Lemma prompt_spec : forall oom style text s, 
  (prompt converse oom style text s = (fst (fst (prompt converse oom style text s)), None, s)) \/
  exists c fn w rv resp, h_conv s = Some c /\ cv_fn c = Some fn /\ converse fn (h_world s) style text = (w, (rv, resp)) /\
    prompt converse oom style text s = (rv, match resp with Some r => r | None => None end, set_world w (set_log (EvConv fn style text :: h_log s) s)).
Proof.
  intros oom style text s. unfold prompt. destruct (h_conv s) as [c|]; [|left; reflexivity]. destruct (cv_fn c) as [fn|] eqn:EF; [|left; reflexivity].
  destruct oom; [left; reflexivity|]. right. unfold ask. destruct (converse fn (h_world s) style text) as [w [rv resp]] eqn:E.
  exists c, fn, w, rv, resp. auto.
Qed.
Lemma prompt_items : forall oom style text s ty, item ty (snd (prompt converse oom style text s)) = item ty s.
Proof.
  intros. destruct (prompt_spec oom style text s) as [E|(c & fn & w & rv & resp & _ & _ & _ & E)]; rewrite E; reflexivity.
Qed.

(** C42: when a password is changed, a new password that is not known yet is only stored after it was typed twice,
    the same both times, at prompts that do not echo. *)
Theorem new_password_typed_twice : forall fail pr s rv v s',
  h_choice s = 6 -> item 6 s = VNull -> get_authtok converse fail 6 pr false s = Ok (rv, v, s') -> item 6 s' <> VNull \/ rv = 0 ->
  exists c fn text1 text2 t w w', h_conv s = Some c /\ cv_fn c = Some fn /\
    typed_at fn text1 t (h_world s) w /\ typed_at fn text2 t w w' /\
    h_world s' = w' /\ h_log s' = EvConv fn 1 text2 :: EvConv fn 1 text1 :: h_log s /\
    rv = 0 /\ v = Some (VStr t) /\ item 6 s' = VStr t /\ h_verified s' = true.
Proof.
  intros fail pr s rv v s' HC HI H HS. unfold get_authtok in H. rewrite HC in H. cbn [Z.eqb Pos.eqb andb] in H.
  match type of H with bind ?f _ = _ => assert (P : exists at0 s1, f = Ok (at0, s1) /\ item 6 s1 = VNull /\ h_conv s1 = h_conv s /\ h_log s1 = h_log s /\ h_world s1 = h_world s) end.
  { destruct (get_option (h_args s) (lit "authtok_type")) as [t|].
    - cbn [bind]. destruct (set_item (fail 5%nat) false 13 (AStr t) s) as [[r s1]| |] eqn:E; cbn [bind].
      + exists t, s1. split; [reflexivity|]. destruct (set_item_keeps _ _ _ _ _ _ _ E) as (A & B & _ & D); try discriminate.
        destruct (set_item_effect _ _ _ _ _ _ _ E) as (R & O & _). rewrite O by discriminate. unfold rest in R. repeat split; congruence.
      + exfalso. cbn in E. destruct (fail 5%nat); discriminate.
      + exfalso. cbn in E. destruct (fail 5%nat); discriminate.
    - eexists; exists s. split; [reflexivity|]. repeat split; auto. }
  destruct P as (at0 & s1 & E & I1 & C1 & L1 & W1). rewrite E in H. cbn [bind] in H. clear E. rewrite <- C1, <- W1, <- L1. clear C1 W1 L1 HC HI s.
  assert (G : get_item 6 s1 = ((if h_module s1 then 0 else 29), VNull)).
  { rewrite get_item_answers, I1. cbn [existsb Z.eqb Pos.eqb orb andb]. destruct (h_module s1); reflexivity. }
  rewrite G in H. cbn [is_null negb andb Nat.ltb Nat.leb] in H. rewrite andb_false_r in H.
  match type of H with (if ?b then _ else _) = _ => destruct b end.
  { injection H as <- <- <-. destruct HS; [congruence|discriminate]. }
  match type of H with context [prompt converse (fail 4%nat) 3 (lit "Password change has been aborted.")] =>
  assert (K : exists text1 text2 s2, item 6 s2 = VNull /\ h_conv s2 = h_conv s1 /\ h_log s2 = h_log s1 /\ h_world s2 = h_world s1 /\ h_module s2 = h_module s1 /\
    (let '(rv, r0, r1, s) :=
      (let '(rv, r0, s) := prompt converse (fail 1%nat) 1 text1 s2 in
       match r0 with
       | Some _ => if (rv =? 0) && true
                   then let '(rv, r1, s) := prompt converse (fail 2%nat) 1 text2 s in (rv, r0, r1, s)
                   else (rv, r0, None, s)
       | None => (rv, r0, None, s)
       end) in
      match r0 with
      | None => Ok (20, None, snd (prompt converse (fail 4%nat) 3 (lit "Password change has been aborted.") s))
      | Some t0 =>
          if negb (rv =? 0) then Ok (20, None, snd (prompt converse (fail 4%nat) 3 (lit "Password change has been aborted.") s))
          else
          match r1 with
          | None => Ok (20, None, snd (prompt converse (fail 4%nat) 3 (lit "Password change has been aborted.") s))
          | Some t1 => if negb (streq t0 t1) then Ok (24, None, snd (prompt converse (fail 4%nat) 3 (lit "Sorry, passwords do not match.") s)) else
             bind (set_item (fail 3%nat) false 6 (AStr t0) s) (fun '(rv, s) =>
             if negb (rv =? 0) then Ok (rv, None, s)
             else let s := set_verified true s in
             let (rv, v) := get_item 6 s in Ok (rv, Some v, s))
          end
      end) = Ok (rv, v, s')) end.
  { destruct pr as [p|]; [exists p, (lit "Retype " ++ p)%list, s1; repeat split; auto; exact H|].
    eexists; eexists; exists (set_verified false s1); split; [exact I1|]. repeat split. exact H. }
  clear H. destruct K as (text1 & text2 & s2 & I2 & C2 & L2 & W2 & M2 & H). rewrite <- C2, <- L2, <- W2. clear C2 L2 W2 M2.
  assert (NO : forall (e : Z) o t s3, item 6 s3 = VNull -> e <> 0 -> Ok (e, @None ival, snd (prompt converse o 3 t s3)) = Ok (rv, v, s') -> False).
  { intros e o t s3 HI HE Q. injection Q as <- <- <-. rewrite prompt_items in HS. destruct HS; congruence. }
  destruct (prompt_spec (fail 1%nat) 1 text1 s2) as [E|(c & fn & w & rv1 & resp & HCv & HFn & HA & E)]; rewrite E in H.
  { exfalso. eapply NO; [| |exact H]; [exact I2|discriminate]. }
  set (s3 := set_world w (set_log (EvConv fn 1 text1 :: h_log s2) s2)) in *.
  destruct resp as [[t0|]|]; try (exfalso; eapply NO; [| |exact H]; [exact I2|discriminate]).
  destruct (Z.eqb_spec rv1 0) as [->|N1]; cbn [andb] in H.
  2:{ rewrite (proj2 (Z.eqb_neq _ 0) N1) in H. cbn [negb] in H. exfalso. eapply NO; [| |exact H]; [exact I2|discriminate]. }
  destruct (prompt_spec (fail 2%nat) 1 text2 s3) as [E2|(c' & fn' & w' & rv2 & resp2 & HCv' & HFn' & HA' & E2)]; rewrite E2 in H.
  { exfalso. destruct (fst (fst (prompt converse (fail 2%nat) 1 text2 s3)) =? 0); cbn [negb] in H; (eapply NO; [| |exact H]; [exact I2|discriminate]). }
  assert (c' = c) by (cbn in HCv'; congruence). subst c'. assert (fn' = fn) by congruence. subst fn'.
  set (s4 := set_world w' (set_log (EvConv fn 1 text2 :: h_log s3) s3)) in *.
  destruct (Z.eqb_spec rv2 0) as [->|N2]; cbn [negb] in H; [|exfalso; eapply NO; [| |exact H]; [exact I2|discriminate]].
  destruct resp2 as [[t1|]|]; try (exfalso; eapply NO; [| |exact H]; [exact I2|discriminate]).
  destruct (streq t0 t1) eqn:ES; cbn [negb] in H; [|exfalso; eapply NO; [| |exact H]; [exact I2|discriminate]].
  apply streq_eq in ES. subst t1.
  exists c, fn, text1, text2, t0, w, w'. split; [exact HCv|]. split; [exact HFn|]. split; [exact HA|]. split; [exact HA'|].
  destruct (set_item (fail 3%nat) false 6 (AStr t0) s4) as [[r s5]| |] eqn:E5; cbn [bind] in H; try discriminate.
  destruct (set_item_effect _ _ _ _ _ _ _ E5) as (R5 & O5 & S5 & F5).
  destruct (Z.eqb_spec r 0) as [->|NR]; cbn [negb] in H.
  - destruct (S5 eq_refl) as [V5|(_ & n & _ & Q & _)]; [|discriminate Q]. cbn in V5.
    assert (HM : h_module s4 = true) by (destruct (h_module s4) eqn:HM0; [reflexivity|]; exfalso; unfold set_item in E5; cbn [Z.eqb Pos.eqb orb] in E5; rewrite HM0 in E5; discriminate).
    assert (G5 : get_item 6 (set_verified true s5) = (0, VStr t0)).
    { rewrite get_item_answers. cbn [existsb Z.eqb Pos.eqb orb andb h_module set_verified]. replace (h_module s5) with (h_module s4) by (unfold rest in R5; congruence).
      rewrite HM. f_equal. exact V5. }
    rewrite G5 in H. injection H as <- <- <-. unfold rest in R5. split; [cbn; transitivity (h_world s4); [congruence|reflexivity]|].
    split; [cbn; transitivity (h_log s4); [congruence|reflexivity]|]. split; [reflexivity|]. split; [reflexivity|]. split; [exact V5|reflexivity].
  - exfalso. injection H as <- <- <-. assert (I5 : item 6 s4 = VNull) by exact I2. destruct HS as [HS|HS]; [|congruence].
    destruct (F5 NR) as [V|[(_ & _ & _ & Q & _)|[Q _]]]; congruence.
Qed.

(** C42: pam_get_authtok_verify, while the password is not verified: it succeeds only if the same password was typed. *)
Theorem verify_asks_again : forall fail given pr s rv v s',
  h_verified s = false -> get_authtok_verify converse fail given pr s = Ok (rv, v, s') -> rv = 0 ->
  exists c fn text w, h_conv s = Some c /\ cv_fn c = Some fn /\ typed_at fn text given (h_world s) w /\
    h_world s' = w /\ h_log s' = EvConv fn 1 text :: h_log s /\ v = Some (VStr given) /\ item 6 s' = VStr given.
Proof.
  intros fail given pr s rv v s' HV H ->. unfold get_authtok_verify in H. destruct (negb (h_choice s =? 6)); [discriminate|]. rewrite HV in H. cbv zeta in H.
  match type of H with context [prompt converse (fail 1%nat) 1 ?t s] => set (text := t) in * end.
  assert (NO : forall (e : Z) t s3, e <> 0 -> bind (bind (set_item false false 6 ANull s3) (fun '(_, s) => Ok (snd (prompt converse (fail 4%nat) 3 t s)))) (fun s => Ok (e, @None ival, s)) = Ok (0, v, s') -> False).
  { intros e t s3 NE Q. destruct (set_item false false 6 ANull s3) as [[r0 s4]| |]; cbn [bind] in Q; congruence. }
  destruct (prompt_spec (fail 1%nat) 1 text s) as [E|(c & fn & w & rv1 & resp & HCv & HFn & HA & E)]; rewrite E in H.
  { exfalso. eapply NO; [|exact H]. discriminate. }
  set (s3 := set_world w (set_log (EvConv fn 1 text :: h_log s) s)) in *.
  destruct resp as [[t|]|]; try (exfalso; eapply NO; [|exact H]; discriminate).
  destruct (Z.eqb_spec rv1 0) as [->|N]; [|exfalso; eapply NO; [|exact H]; discriminate].
  destruct (streq given t) eqn:ES; cbn [negb] in H; [|exfalso; eapply NO; [|exact H]; discriminate].
  apply streq_eq in ES. subst t. exists c, fn, text, w. split; [exact HCv|]. split; [exact HFn|]. split; [exact HA|].
  destruct (set_item (fail 3%nat) false 6 (AStr given) s3) as [[r s5]| |] eqn:E5; cbn [bind] in H; try discriminate.
  destruct (set_item_effect _ _ _ _ _ _ _ E5) as (R5 & O5 & S5 & F5).
  destruct (Z.eqb_spec r 0) as [->|NR]; cbn [negb] in H; [|congruence].
  destruct (S5 eq_refl) as [V5|(_ & n & _ & Q & _)]; [|discriminate Q]. cbn in V5.
  assert (HM : h_module s3 = true) by (destruct (h_module s3) eqn:HM0; [reflexivity|]; exfalso; unfold set_item in E5; cbn [Z.eqb Pos.eqb orb] in E5; rewrite HM0 in E5; discriminate).
  assert (G5 : get_item 6 (set_verified true s5) = (0, VStr given)).
  { rewrite get_item_answers. cbn [existsb Z.eqb Pos.eqb orb andb h_module set_verified]. replace (h_module s5) with (h_module s3) by (unfold rest in R5; congruence).
    rewrite HM. f_equal. exact V5. }
  rewrite G5 in H. injection H as <- <-. unfold rest in R5. split; [cbn; transitivity (h_world s3); [congruence|reflexivity]|].
  split; [cbn; transitivity (h_log s3); [congruence|reflexivity]|]. split; [reflexivity|exact V5].
Qed.

(** When the answer differs, or there is none, a module's password is dropped. *)
Theorem verify_failure_drops : forall fail given pr s rv v s',
  h_verified s = false -> h_choice s = 6 -> h_module s = true -> (forall n, fail n = false) ->
  get_authtok_verify converse fail given pr s = Ok (rv, v, s') -> rv <> 0 -> item 6 s' = VNull /\ v = None.
Proof.
  intros fail given pr s rv v s' HV HC HM HN H NR. unfold get_authtok_verify in H. rewrite HC, HV in H. cbn [Z.eqb Pos.eqb negb] in H. cbv zeta in H.
  match type of H with context [prompt converse (fail 1%nat) 1 ?t s] => set (text := t) in * end.
  assert (NO : forall (e : Z) t s3, h_module s3 = true -> bind (bind (set_item false false 6 ANull s3) (fun '(_, s) => Ok (snd (prompt converse (fail 4%nat) 3 t s)))) (fun s => Ok (e, @None ival, s)) = Ok (rv, v, s') -> item 6 s' = VNull /\ v = None).
  { intros e t s3 M3 Q. destruct (set_item false false 6 ANull s3) as [[r0 s4]| |] eqn:E4; cbn [bind] in Q; try discriminate.
    injection Q as <- <- <-. split; [|reflexivity]. rewrite prompt_items. destruct (set_item_effect _ _ _ _ _ _ _ E4) as (_ & _ & S4 & F4).
    assert (r0 = 0).
    { unfold set_item in E4. cbn [Z.eqb Pos.eqb orb] in E4. rewrite M3 in E4. cbn in E4. destruct (s_authtok (h_str s3)); cbn in E4; congruence. }
    subst r0. destruct (S4 eq_refl) as [V4|(_ & n & _ & Q & _)]; [exact V4|discriminate Q]. }
  destruct (prompt_spec (fail 1%nat) 1 text s) as [E|(c & fn & w & rv1 & resp & HCv & HFn & HA & E)]; rewrite E in H.
  { eapply NO; [|exact H]. exact HM. }
  set (s3 := set_world w (set_log (EvConv fn 1 text :: h_log s) s)) in *.
  destruct resp as [[t|]|]; try (eapply NO; [|exact H]; exact HM).
  destruct (Z.eqb_spec rv1 0) as [->|N]; [|eapply NO; [|exact H]; exact HM].
  destruct (streq given t) eqn:ES; cbn [negb] in H; [|eapply NO; [|exact H]; exact HM].
  exfalso. rewrite HN in H. destruct (set_item false false 6 (AStr t) s3) as [[r s5]| |] eqn:E5; cbn [bind] in H; try discriminate.
  assert (r = 0).
  { unfold set_item in E5. cbn [Z.eqb Pos.eqb orb] in E5. change (h_module s3) with (h_module s) in E5. rewrite HM in E5. cbn in E5. destruct (s_authtok (h_str s)); cbn in E5; congruence. }
  subst r. cbn [Z.eqb negb] in H. rewrite get_item_answers in H. cbn [existsb Z.eqb Pos.eqb orb andb h_module set_verified] in H.
  destruct (set_item_effect _ _ _ _ _ _ _ E5) as (R5 & _). assert (M5 : h_module s5 = true) by (unfold rest in R5; transitivity (h_module s3); [congruence|exact HM]).
  rewrite M5 in H. congruence.
Qed.

(** A password that is known is returned without asking. *)
Theorem known_password_not_asked : forall fail ty pr nv s rv v s', ty = 6 \/ ty = 7 -> h_module s = true -> item ty s <> VNull ->
  get_authtok converse fail ty pr nv s = Ok (rv, v, s') -> rv = 0 /\ v = Some (item ty s) /\ h_log s' = h_log s /\ item ty s' = item ty s.
Proof.
  intros fail ty pr nv s rv v s' HT HM HI H. unfold get_authtok in H. cbv zeta in H.
  match type of H with bind ?f _ = _ => assert (P : exists at0 s1, f = Ok (at0, s1) /\ item ty s1 = item ty s /\ h_log s1 = h_log s /\ h_module s1 = true) end.
  { destruct (h_choice s =? 6); [|eexists; exists s; auto]. destruct (get_option (h_args s) (lit "authtok_type")) as [t|].
    - destruct (set_item (fail 5%nat) false 13 (AStr t) s) as [[r s1]| |] eqn:E; cbn [bind].
      + exists t, s1. split; [reflexivity|].
        destruct (set_item_effect _ _ _ _ _ _ _ E) as (R & O & _). rewrite O by (destruct HT; subst; discriminate). unfold rest in R. repeat split; congruence.
      + exfalso. cbn in E. destruct (fail 5%nat); discriminate.
      + exfalso. cbn in E. destruct (fail 5%nat); discriminate.
    - eexists; exists s. split; [reflexivity|]. auto. }
  destruct P as (at0 & s1 & E & I1 & L1 & M1). rewrite E in H. cbn [bind] in H. rewrite get_item_answers, I1, M1 in H.
  assert (B : existsb (Z.eqb ty) [1; 2; 3; 4; 5; 8; 9; 10; 11; 12; 13] || (existsb (Z.eqb ty) [6; 7] && true) = true) by (destruct HT; subst; reflexivity).
  rewrite B in H. cbn [Z.eqb andb] in H. destruct (item ty s) eqn:EI; [congruence|..]; cbn [is_null negb] in H; injection H as <- <- <-; auto.
Qed.
End User.

(** For the examples: a person with a list of answers. *)
Definition answers := list (Z * option (option cstr)).
Definition person (fn : nat) (w : answers) (style : Z) (text : cstr) : answers * (Z * option (option cstr)) :=
  if style =? 3 then (w, (0, Some None)) else match w with [] => ([], (19, None)) | a :: w => (w, a) end.
Definition says (t : string) : Z * option (option cstr) := (0, Some (Some (lit t))).
Definition handle1 (choice : Z) (w : answers) : hs answers :=
  mkHS true (mkS (Some (lit "login")) None None None None None None None None None) (Some (mkConv (Some 1%nat) 0)) None no_xauth
    0 false None false true [] choice false (mkFD false 0 0) false [] w.
Definition out_of {A} (d : hs answers) (r : res (A * hs answers)) : hs answers := match r with Ok (_, s) => s | _ => d end.

(** pam_get_user: suspended, other prompt, resumed, known. *)
Example get_user_example :
  let s0 := handle1 1 [(30, None); says "joe"] in
  let ask p s := get_user person false false p s in
  let s1 := out_of s0 (ask None s0) in let s2 := out_of s0 (ask (Some (lit "login:")) s1) in
  ask None s0 = Ok (30, None, s1) /\ ask (Some (lit "who? ")) s1 = Ok (26, None, s1) /\
  ask (Some (lit "login:")) s1 = Ok (0, Some (lit "joe"), s2) /\ ask (Some (lit "who? ")) s2 = Ok (0, Some (lit "joe"), s2) /\
  get_item 2 s2 = (0, VStr (lit "joe")) /\ h_log s2 = [EvConv 1 2 (lit "login:"); EvConv 1 2 (lit "login:")].
Proof. cbv zeta; repeat match goal with |- _ /\ _ => split end; vm_compute; reflexivity. Qed.
(** A failure is remembered, until the prompt is set. *)
Example get_user_failure_example :
  let s0 := handle1 1 [(19, None); says "joe"] in
  let ask s := get_user person false false None s in
  let s1 := out_of s0 (ask s0) in let s2 := out_of s0 (set_item false false 3 (AStr (lit "tty1")) s1) in
  let s3 := out_of s0 (set_item false false 9 (AStr (lit "user: ")) s2) in
  ask s0 = Ok (19, None, s1) /\ meanwhile person s1 s2 /\ ask s2 = Ok (19, None, s2) /\
  (exists s4, ask s3 = Ok (0, Some (lit "joe"), s4)).
Proof.
  intros s0 ask s1 s2 s3. split; [vm_compute; reflexivity|]. split; [|split; [vm_compute; reflexivity|eexists; vm_compute; reflexivity]].
  apply (mw_set person s1 s1 false false 3 (AStr (lit "tty1")) 0 s2); [constructor|vm_compute; reflexivity|discriminate|discriminate|discriminate].
Qed.
(** A new password typed twice; one mistyped. *)
Example new_password_example :
  let s0 := handle1 6 [says "one"; says "two"; says "new"; says "new"] in
  let get s := get_authtok person (fun _ => false) 6 None false s in
  let s1 := out_of s0 (get s0) in let s2 := out_of s0 (get s1) in
  get s0 = Ok (24, None, s1) /\ get_item 6 s1 = (0, VNull) /\ get s1 = Ok (0, Some (VStr (lit "new")), s2) /\ get_item 6 s2 = (0, VStr (lit "new")) /\
  h_log s2 = [EvConv 1 1 (lit "Retype new password: "); EvConv 1 1 (lit "New password: "); EvConv 1 3 (lit "Sorry, passwords do not match.");
              EvConv 1 1 (lit "Retype new password: "); EvConv 1 1 (lit "New password: ")].
Proof. cbv zeta; repeat match goal with |- _ /\ _ => split end; vm_compute; reflexivity. Qed.
Example verify_example :
  let s0 := handle1 6 [says "new"; says "nwe"; says "new"; says "new"] in
  let get s := get_authtok person (fun _ => false) 6 None true s in
  let verify s := get_authtok_verify person (fun _ => false) (lit "new") None s in
  let s1 := out_of s0 (get s0) in let s2 := out_of s0 (verify s1) in let s3 := out_of s0 (get s2) in let s4 := out_of s0 (verify s3) in
  get s0 = Ok (0, Some (VStr (lit "new")), s1) /\ verify s1 = Ok (24, None, s2) /\ get_item 6 s2 = (0, VNull) /\
  get s2 = Ok (0, Some (VStr (lit "new")), s3) /\ verify s3 = Ok (0, Some (VStr (lit "new")), s4) /\ h_world s4 = [].
Proof. cbv zeta; repeat match goal with |- _ /\ _ => split end; vm_compute; reflexivity. Qed.
(** C42 is false of pam_get_authtok_noverify followed by pam_get_authtok_verify: that a password was verified is only
    forgotten when pam_get_authtok asks with its own prompt.  Here a module verified "old", another one dropped it
    and asks with a prompt of its own; then pam_get_authtok_verify accepts what was typed once. *)
Theorem verify_may_not_ask_refuted : exists s0 s1 s2 s3 s4 : hs answers,
  h_choice s0 = 6 /\ h_verified s0 = false /\
  get_authtok person (fun _ => false) 6 None false s0 = Ok (0, Some (VStr (lit "old")), s1) /\
  set_item false false 6 ANull s1 = Ok (0, s2) /\
  get_authtok person (fun _ => false) 6 (Some (lit "New: ")) true s2 = Ok (0, Some (VStr (lit "typo")), s3) /\
  get_authtok_verify person (fun _ => false) (lit "typo") (Some (lit "New: ")) s3 = Ok (0, Some (VStr (lit "typo")), s4) /\
  h_log s4 = h_log s3.
Proof.
  set (s0 := handle1 6 [says "old"; says "old"; says "typo"; says "right"]).
  set (s1 := out_of s0 (get_authtok person (fun _ => false) 6 None false s0)). set (s2 := out_of s0 (set_item false false 6 ANull s1)).
  set (s3 := out_of s0 (get_authtok person (fun _ => false) 6 (Some (lit "New: ")) true s2)).
  exists s0, s1, s2, s3, s3. cbv zeta; repeat match goal with |- _ /\ _ => split end; vm_compute; reflexivity.
Qed.

Print Assumptions set_item_effect.
Print Assumptions get_item_answers.
Print Assumptions items_hold_last_value.
Print Assumptions failed_set_leaves_item_refuted.
Print Assumptions set_password_from_inside_refuted.
Print Assumptions known_user_returned.
Print Assumptions user_asked_for.
Print Assumptions remembered_failure.
Print Assumptions other_prompt_aborts.
Print Assumptions answer_is_final.
Print Assumptions new_password_typed_twice.
Print Assumptions verify_asks_again.
Print Assumptions verify_failure_drops.
Print Assumptions known_password_not_asked.
Print Assumptions verify_may_not_ask_refuted.
