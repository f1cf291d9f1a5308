(** The environment list represents an association list without duplicates. *)
From Coq Require Import String Ascii List Arith ZArith Lia Bool.
From Verif Require Import Base Env_Model Env_Spec.
Import ListNotations.
Local Open Scope Z_scope.

Definition join (p : cstr * cstr) : cstr := fst p ++ c_eq :: snd p.

(** [e] stores the pairs [al]. *)
Definition stores (e : environ) (al : list (cstr * cstr)) : Prop :=
  (exists rest, elist e = map (fun p => Some (join p)) al ++ None :: rest) /\
  length (elist e) = entries e /\ requested e = S (length al) /\
  Forall (fun p => name_ok (fst p)) al /\ NoDup (map fst al).

Lemma split_eq_unique : forall a b c d, ~ In c_eq a -> ~ In c_eq c -> a ++ c_eq :: b = c ++ c_eq :: d -> a = c /\ b = d.
Proof.
  induction a as [|x a IH]; intros b [|y c] d HA HC E; cbn [app] in E.
  - injection E as E. auto.
  - injection E as E1 E2. subst y. exfalso. apply HC. left. reflexivity.
  - injection E as E1 E2. subst x. exfalso. apply HA. left. reflexivity.
  - injection E as E1 E2. subst y. destruct (IH b c d) as [-> ->]; auto; intros H; [apply HA|apply HC]; right; exact H.
Qed.

Lemma strneq_prefix : forall len nv s, (len <= length nv)%nat -> strneq len nv s = true <-> exists r, s = firstn len nv ++ r.
Proof.
  induction len as [|len IH]; intros nv s H; cbn [strneq firstn app]; [split; eauto|].
  destruct nv as [|x nv]; cbn [length] in H; [lia|]. destruct s as [|y s].
  - split; [discriminate|]. intros (r & E). discriminate.
  - cbn [app]. rewrite andb_true_iff, (IH nv s) by lia. split.
    + intros [E (r & ->)]. apply Ascii.eqb_eq in E. subst. eauto.
    + intros (r & E). injection E as -> ->. split; [apply Ascii.eqb_refl|eauto].
Qed.

Lemma char_at_app : forall a b n, (n = length a) -> char_at (a ++ b) n = Ok (match b with c :: _ => c | [] => NUL end).
Proof. induction a as [|x a IH]; intros b n ->; cbn [app length char_at]; [destruct b; reflexivity|apply IH; reflexivity]. Qed.

Lemma slot_stored : forall al rest j p, nth_error al j = Some p -> slot (map (fun p => Some (join p)) al ++ rest) j = Ok (Some (join p)).
Proof.
  intros al rest j p H. unfold slot. rewrite nth_error_app1.
  - rewrite (map_nth_error _ _ _ H). reflexivity.
  - rewrite map_length. apply nth_error_Some. congruence.
Qed.

(** Searching finds the string starting with the key and '='. *)
Lemma search_spec : forall al rest nv len i, (len <= length nv)%nat -> (i <= length al)%nat ->
  let key := firstn len nv in
  match search_from (map (fun p => Some (join p)) al ++ rest) nv len i with
  | Ok (Some j) => exists p v, nth_error al j = Some p /\ join p = key ++ c_eq :: v
  | Ok None => forall j p v, (j < i)%nat -> nth_error al j = Some p -> join p <> key ++ c_eq :: v
  | _ => False
  end.
Proof.
  intros al rest nv len i HL. induction i as [|i IH]; intros HI; cbn [search_from]; [intros j p v H; lia|].
  destruct (nth_error al i) as [p|] eqn:EP; [|apply nth_error_None in EP; lia].
  rewrite (slot_stored _ _ _ _ EP). cbn [bind deref].
  assert (HK : length (firstn len nv) = len) by (apply firstn_length_le; exact HL).
  specialize (IH ltac:(lia)). cbv zeta in IH.
  assert (STEP : (forall v, join p <> firstn len nv ++ c_eq :: v) ->
    match search_from (map (fun p => Some (join p)) al ++ rest) nv len i with
    | Ok (Some j) => exists p v, nth_error al j = Some p /\ join p = firstn len nv ++ c_eq :: v
    | Ok None => forall j p v, (j < S i)%nat -> nth_error al j = Some p -> join p <> firstn len nv ++ c_eq :: v
    | _ => False end).
  { intros HN. destruct (search_from (map (fun p => Some (join p)) al ++ rest) nv len i) as [[j|]| |]; auto.
    intros j q v Hj Hq. destruct (Nat.eq_dec j i) as [->|N]; [rewrite EP in Hq; injection Hq as <-; apply HN|]. apply (IH j); [lia|exact Hq]. }
  destruct (strneq len nv (join p)) eqn:ES.
  - apply strneq_prefix in ES; [|exact HL]. destruct ES as (r & ER). rewrite ER. rewrite (char_at_app _ _ _ (eq_sym HK)). cbn [bind].
    destruct r as [|c r].
    + change (Ascii.eqb NUL c_eq) with false. cbv iota. apply STEP. intros v E. rewrite ER in E. apply app_inv_head in E. discriminate.
    + destruct (Ascii.eqb_spec c c_eq) as [->|N]; [exists p, r; split; [exact EP|exact ER]|].
      apply STEP. intros v E. rewrite ER in E. apply app_inv_head in E. congruence.
  - apply STEP. intros v E. assert (X : strneq len nv (join p) = true) by (apply strneq_prefix; [exact HL|eauto]). congruence.
Qed.

Lemma search_key : forall e al nv len, stores e al -> (len <= length nv)%nat -> ~ In c_eq (firstn len nv) ->
  match search_env e nv len with
  | Ok (Some j) => exists v, nth_error al j = Some (firstn len nv, v)
  | Ok None => ~ In (firstn len nv) (map fst al)
  | _ => False
  end.
Proof.
  intros e al nv len ((rest & EL) & _ & ER & HF & _) HL HN. unfold search_env. rewrite EL, ER.
  replace (S (length al) - 1)%nat with (length al) by lia.
  pose proof (search_spec al (None :: rest) nv len (length al) HL (le_n _)) as S. cbv zeta in S.
  destruct (search_from (map (fun p => Some (join p)) al ++ None :: rest) nv len (length al)) as [[j|]| |]; auto.
  - destruct S as ((n & w) & v & EJ & E). rewrite Forall_forall in HF. pose proof (HF (n, w) (nth_error_In _ _ EJ)) as [_ X]. cbn [fst] in X.
    unfold join in E. cbn [fst snd] in E. apply split_eq_unique in E; auto. destruct E as [-> ->]. eauto.
  - intros HI. apply in_map_iff in HI. destruct HI as ((n & w) & E & HI). cbn [fst] in E. apply In_nth_error in HI. destruct HI as (j & EJ).
    apply (S j (n, w) w); [apply nth_error_Some; congruence|exact EJ|]. unfold join. cbn [fst snd]. rewrite E. reflexivity.
Qed.

(** *** Strings and requests *)
Lemma len_to_eq_le : forall s, (len_to_eq s <= length s)%nat.
Proof. induction s as [|c s IH]; cbn [len_to_eq length]; [lia|]. destruct (Ascii.eqb c c_eq); lia. Qed.

Lemma len_to_eq_clean : forall s, ~ In c_eq (firstn (len_to_eq s) s).
Proof.
  induction s as [|c s IH]; cbn [len_to_eq]; [intros []|]. destruct (Ascii.eqb_spec c c_eq) as [->|N]; [intros []|].
  cbn [firstn]. intros [H|H]; [congruence|exact (IH H)].
Qed.

Lemma len_to_eq_split : forall s, s = firstn (len_to_eq s) s \/ exists v, s = firstn (len_to_eq s) s ++ c_eq :: v.
Proof.
  induction s as [|c s IH]; cbn [len_to_eq]; [left; reflexivity|]. destruct (Ascii.eqb_spec c c_eq) as [->|N].
  - right. exists s. reflexivity.
  - cbn [firstn app]. destruct IH as [IH|(v & IH)]; [left; f_equal; exact IH|right; exists v; f_equal; exact IH].
Qed.

Lemma request_cases : forall nv, is_cstr nv ->
  (len_to_eq nv = 0%nat /\ asks nv None) \/
  (exists n, n = firstn (len_to_eq nv) nv /\ len_to_eq nv <> 0%nat /\ name_ok n /\
    ((asks nv (Some (n, None)) /\ nv = n /\ char_at nv (len_to_eq nv) = Ok NUL) \/
     exists v, asks nv (Some (n, Some v)) /\ nv = n ++ c_eq :: v /\ char_at nv (len_to_eq nv) = Ok c_eq)).
Proof.
  intros nv HS. destruct (Nat.eq_dec (len_to_eq nv) 0) as [E|E].
  - left. split; [exact E|]. destruct nv as [|c nv]; [constructor|]. cbn [len_to_eq] in E. destruct (Ascii.eqb_spec c c_eq) as [->|N]; [constructor|lia].
  - right. exists (firstn (len_to_eq nv) nv). split; [reflexivity|]. split; [exact E|].
    assert (HL : length (firstn (len_to_eq nv) nv) = len_to_eq nv) by (apply firstn_length_le; apply len_to_eq_le).
    assert (HN : name_ok (firstn (len_to_eq nv) nv)).
    { split; [|apply len_to_eq_clean]. intros X. rewrite X in HL. cbn in HL. lia. }
    split; [exact HN|]. destruct (len_to_eq_split nv) as [X|(v & X)].
    + left. split; [rewrite X at 1; apply ask_delete; exact HN|]. split; [exact X|].
      pose proof (char_at_app (firstn (len_to_eq nv) nv) [] (len_to_eq nv) (eq_sym HL)) as Y. rewrite app_nil_r, <- X in Y. exact Y.
    + right. exists v. split; [rewrite X at 1; apply ask_set; exact HN|]. split; [exact X|].
      pose proof (char_at_app (firstn (len_to_eq nv) nv) (c_eq :: v) (len_to_eq nv) (eq_sym HL)) as Y. rewrite <- X in Y. exact Y.
Qed.

(** *** Changing the list *)
Definition look (al : list (cstr * cstr)) (n : cstr) : option cstr :=
  match find (fun p => streq (fst p) n) al with Some p => Some (snd p) | None => None end.

Lemma look_none : forall al n, ~ In n (map fst al) -> look al n = None.
Proof.
  intros al n H. unfold look. destruct (find (fun p => streq (fst p) n) al) as [p|] eqn:E; [|reflexivity].
  apply find_some in E. destruct E as [E1 E2]. apply streq_eq in E2. exfalso. apply H. rewrite <- E2. apply in_map. exact E1.
Qed.

Lemma look_in : forall al n v, NoDup (map fst al) -> In (n, v) al -> look al n = Some v.
Proof.
  intros al n v ND HI. induction al as [|(m & w) al IH]; [destruct HI|]. unfold look in *. cbn [find fst].
  cbn [map fst] in ND. inversion ND as [|? ? N1 N2]; subst. destruct HI as [E|HI].
  - injection E as -> ->. rewrite streq_refl. reflexivity.
  - destruct (streq m n) eqn:E; [|auto]. apply streq_eq in E. subst m. exfalso. apply N1. apply (in_map fst) in HI. exact HI.
Qed.

Lemma look_app : forall a b n, look (a ++ b) n = match look a n with Some v => Some v | None => look b n end.
Proof.
  intros a b n. unfold look. induction a as [|p a IH]; [reflexivity|]. cbn [app find]. destruct (streq (fst p) n); [reflexivity|exact IH].
Qed.

Lemma look_some : forall al n v, look al n = Some v -> In (n, v) al.
Proof.
  intros al n v H. unfold look in H. destruct (find (fun p => streq (fst p) n) al) as [p|] eqn:E; [|discriminate].
  apply find_some in E. destruct E as [E1 E2]. apply streq_eq in E2. injection H as <-. rewrite <- E2. destruct p; exact E1.
Qed.

Definition drop_nth (j : nat) (al : list (cstr * cstr)) : list (cstr * cstr) := firstn j al ++ skipn (S j) al.

Lemma nth_split3 : forall (A : Type) (l : list A) j x, nth_error l j = Some x -> l = firstn j l ++ x :: skipn (S j) l.
Proof.
  intros A. induction l as [|a l IH]; intros [|j] x H; cbn [nth_error] in H; try discriminate.
  - injection H as ->. reflexivity.
  - cbn [firstn skipn app]. f_equal. apply IH. exact H.
Qed.

Lemma upd_app_len : forall (A : Type) (a b : list A) x y, upd (a ++ x :: b) (length a) y = Some (a ++ y :: b).
Proof. intros A. induction a as [|z a IH]; intros b x y; cbn [app length upd]; [reflexivity|]. rewrite IH. reflexivity. Qed.

Lemma remove_stores : forall l1 n0 l2 rest ent rv, 
  let al := l1 ++ l2 in
  length (map (fun p => Some (join p)) l1 ++ n0 :: map (fun p => Some (join p)) l2 ++ None :: rest) = ent ->
  Forall (fun p => name_ok (fst p)) al -> NoDup (map fst al) ->
  exists e', remove_item (mkEnv ent (S (S (length al))) (map (fun p => Some (join p)) l1 ++ n0 :: map (fun p => Some (join p)) l2 ++ None :: rest)) (length l1) rv = Ok (rv, e') /\
    stores e' al.
Proof.
  intros l1 n0 l2 rest ent rv al HE HF HN. unfold remove_item. cbn [elist requested entries].
  set (s1 := map (fun p => Some (join p)) l1). set (s2 := map (fun p => Some (join p)) l2).
  assert (L1 : length l1 = length s1) by (unfold s1; rewrite map_length; reflexivity).
  assert (L2 : length l2 = length s2) by (unfold s2; rewrite map_length; reflexivity).
  assert (LA : length al = (length s1 + length s2)%nat) by (unfold al; rewrite app_length; lia).
  unfold set_slot. rewrite L1, upd_app_len. cbn [bind].
  replace (S (S (length al)) - 1)%nat with (S (length al)) by lia.
  assert (LL : length (s1 ++ None :: s2 ++ None :: rest) = ent).
  { rewrite <- HE. fold s1 s2. rewrite !app_length. reflexivity. }
  rewrite app_length in LL. cbn [length] in LL. rewrite app_length in LL. cbn [length] in LL.
  match goal with |- context [if ?c then _ else _] => replace c with true end.
  2:{ symmetry. apply Nat.leb_le. rewrite !app_length. cbn [length]. rewrite app_length. cbn [length]. lia. }
  eexists. split; [reflexivity|]. unfold stores. cbn [elist requested entries].
  assert (A1 : firstn (length s1) (s1 ++ None :: s2 ++ None :: rest) = s1).
  { rewrite firstn_app, Nat.sub_diag, firstn_all. cbn [firstn]. apply app_nil_r. }
  assert (A2 : skipn (length s1 + 1) (s1 ++ None :: s2 ++ None :: rest) = s2 ++ None :: rest).
  { rewrite skipn_app. rewrite skipn_all2 by lia. replace (length s1 + 1 - length s1)%nat with 1%nat by lia. reflexivity. }
  assert (A3 : firstn (S (length al) - length s1) (s2 ++ None :: rest) = s2 ++ [None]).
  { replace (S (length al) - length s1)%nat with (length s2 + 1)%nat by lia.
    rewrite firstn_app. rewrite firstn_all2 by lia. replace (length s2 + 1 - length s2)%nat with 1%nat by lia. reflexivity. }
  assert (A4 : skipn (length s1 + (S (length al) - length s1)) (s1 ++ None :: s2 ++ None :: rest) = None :: rest).
  { replace (length s1 + (S (length al) - length s1))%nat with (length s1 + (1 + length s2))%nat by lia.
    rewrite skipn_app, skipn_all2 by lia. replace (length s1 + (1 + length s2) - length s1)%nat with (1 + length s2)%nat by lia.
    cbn [Nat.add skipn app]. rewrite skipn_app, skipn_all2 by lia. replace (length s2 - length s2)%nat with 0%nat by lia. reflexivity. }
  rewrite A1, A2, A3, A4. rewrite <- !app_assoc. cbn [app]. split.
  - exists (None :: rest). unfold al. rewrite map_app. fold s1 s2. rewrite <- app_assoc. reflexivity.
  - split; [|split; [reflexivity|split; assumption]]. rewrite !app_length. cbn [length]. lia.
Qed.

Lemma look_middle : forall l1 l2 n v k, NoDup (map fst (l1 ++ (n, v) :: l2)) -> k <> n -> look (l1 ++ l2) k = look (l1 ++ (n, v) :: l2) k.
Proof.
  intros l1 l2 n v k _ HK. rewrite !look_app. destruct (look l1 k); [reflexivity|]. unfold look at 2. cbn [find fst].
  destruct (streq n k) eqn:E; [apply streq_eq in E; congruence|reflexivity].
Qed.

Lemma nodup_middle : forall l1 l2 (n v : cstr), NoDup (map fst (l1 ++ (n, v) :: l2)) -> NoDup (map fst (l1 ++ l2)) /\ ~ In n (map fst (l1 ++ l2)).
Proof. intros l1 l2 n v H. rewrite map_app in *. cbn [map fst] in H. split; [eapply NoDup_remove_1; exact H|eapply NoDup_remove_2; exact H]. Qed.

(** One call. *)
Lemma putenv_step : forall e al nv oom1 oom2, stores e al -> is_cstr nv -> exists rv e' al',
  putenv oom1 oom2 (Some e) (Some nv) = Ok (rv, Some e') /\ stores e' al' /\
  put_effect (oom1 || oom2) (look al) nv rv (look al').
Proof.
  intros e al nv oom1 oom2 HS HC. unfold putenv.
  destruct (request_cases nv HC) as [[E0 HA]|(n & En & E0 & HN & HR)].
  { rewrite E0. cbn [Nat.eqb]. exists PAM_BAD_ITEM, e, al. split; [reflexivity|]. split; [exact HS|]. apply put_bad; auto. }
  apply Nat.eqb_neq in E0. rewrite E0.
  pose proof (search_key e al nv (len_to_eq nv) HS (len_to_eq_le nv) (len_to_eq_clean nv)) as SK. rewrite <- En in SK.
  destruct (search_env e nv (len_to_eq nv)) as [item| |]; [|destruct SK|destruct SK]. cbn [bind].
  destruct HS as ((rest & EL) & HLen & HReq & HF & HD).
  destruct HR as [(HA & EV & EC)|(v & HA & EV & EC)]; rewrite EC; cbn [bind].
  - (* delete *)
    change (negb (Ascii.eqb NUL NUL)) with false. cbv iota. destruct item as [j|].
    + destruct SK as (v & EJ). pose proof (nth_split3 _ _ _ _ EJ) as SP. set (l1 := firstn j al) in *. set (l2 := skipn (S j) al) in *.
      assert (EJL : j = length l1) by (unfold l1; rewrite firstn_length_le; [reflexivity|]; assert (j < length al)%nat by (apply nth_error_Some; congruence); lia).
      rewrite SP in EL, HReq, HF, HD. clearbody l1 l2. destruct (nodup_middle _ _ _ _ HD) as [D1 D2].
      assert (F1 : Forall (fun p => name_ok (fst p)) (l1 ++ l2)).
      { apply Forall_app in HF. destruct HF as [F1 F2]. apply Forall_app. split; [exact F1|exact (Forall_inv_tail F2)]. }
      destruct (remove_stores l1 (Some (join (n, v))) l2 rest (entries e) PAM_SUCCESS) as (e' & ER & HS'); auto.
      { rewrite <- HLen, EL, map_app. cbn [map]. rewrite <- app_assoc. reflexivity. }
      assert (EE : e = mkEnv (entries e) (S (S (length (l1 ++ l2)))) (map (fun p => Some (join p)) l1 ++ Some (join (n, v)) :: map (fun p => Some (join p)) l2 ++ None :: rest)).
      { destruct e as [en re li]. cbn [entries requested elist] in *. f_equal.
        - rewrite HReq, !app_length. cbn [length]. lia.
        - rewrite EL, map_app. cbn [map]. rewrite <- app_assoc. reflexivity. }
      assert (ER' : remove_item e j PAM_SUCCESS = Ok (PAM_SUCCESS, e')) by (rewrite EE, EJL; exact ER).
      rewrite ER'. cbn [bind]. exists PAM_SUCCESS, e', (l1 ++ l2). split; [reflexivity|]. split; [exact HS'|].
      rewrite SP. apply put_delete with (n := n); [exact HA| |apply look_none; exact D2|].
      * rewrite (look_in _ n v); [discriminate|exact HD|]. apply in_or_app. right. left. reflexivity.
      * intros k HK. apply look_middle with (n := n) (v := v); auto.
    + exists PAM_BAD_ITEM, e, al. split; [reflexivity|]. split; [repeat split; eauto|]. apply put_missing with (n := n); auto. apply look_none. exact SK.
  - (* set *)
    change (negb (Ascii.eqb c_eq NUL)) with true. cbv iota. destruct item as [j|].
    + destruct SK as (w & EJ). pose proof (nth_split3 _ _ _ _ EJ) as SP. set (l1 := firstn j al) in *. set (l2 := skipn (S j) al) in *.
      assert (EJL : j = length (map (fun p => Some (join p)) l1)).
      { unfold l1. rewrite map_length, firstn_length_le; [reflexivity|]. assert (j < length al)%nat by (apply nth_error_Some; congruence). lia. }
      rewrite SP in EL, HReq, HF, HD. clearbody l1 l2. destruct (nodup_middle _ _ _ _ HD) as [D1 D2].
      assert (F1 : Forall (fun p => name_ok (fst p)) (l1 ++ l2)).
      { apply Forall_app in HF. destruct HF as [F1 F2]. apply Forall_app. split; [exact F1|exact (Forall_inv_tail F2)]. }
      rewrite map_app in EL. cbn [map] in EL. rewrite <- app_assoc in EL. cbn [app] in EL.
      assert (EL' : elist e = map (fun p => Some (join p)) l1 ++ Some (join (n, w)) :: map (fun p => Some (join p)) l2 ++ None :: rest) by exact EL.
      unfold set_slot at 1. rewrite EL', EJL, upd_app_len. cbn [bind elist entries requested].
      destruct oom2.
      * assert (EQ : requested e = S (S (length (l1 ++ l2)))) by (rewrite HReq, !app_length; cbn [length]; lia). rewrite EQ.
        destruct (remove_stores l1 None l2 rest (entries e) PAM_BUF_ERR) as (e' & ER & HS'); auto.
        { rewrite <- HLen, EL', !app_length. cbn [length]. reflexivity. }
        rewrite map_length. rewrite ER. cbn [bind]. exists PAM_BUF_ERR, e', (l1 ++ l2). split; [reflexivity|]. split; [exact HS'|].
        rewrite SP. apply put_nomem with (n := n) (v := v); [apply orb_true_r|exact HA|right; apply look_none; exact D2|].
        intros k HK. apply look_middle with (n := n) (v := w); auto.
      * unfold set_slot. rewrite upd_app_len. cbn [bind].
        assert (HD' : NoDup (map fst (l1 ++ (n, v) :: l2))) by (rewrite map_app in *; exact HD).
        eexists PAM_SUCCESS, _, (l1 ++ (n, v) :: l2). split; [reflexivity|]. split.
        { unfold stores. cbn [elist entries requested]. split; [|split; [|split; [|split]]].
          - exists rest. rewrite map_app. cbn [map]. rewrite <- app_assoc. cbn [app]. replace (join (n, v)) with nv by exact EV. reflexivity.
          - rewrite <- HLen, EL', !app_length. cbn [length]. reflexivity.
          - rewrite HReq, !app_length. reflexivity.
          - apply Forall_app in HF. destruct HF as [X1 X2]. apply Forall_app. split; [exact X1|]. constructor; [exact HN|exact (Forall_inv_tail X2)].
          - exact HD'. }
        rewrite SP. apply put_set with (n := n) (v := v); [exact HA| |].
        { apply look_in; [exact HD'|]. apply in_or_app. right. left. reflexivity. }
        intros k HK. transitivity (look (l1 ++ l2) k); [symmetry; exact (look_middle l1 l2 n v k HD' HK)|exact (look_middle l1 l2 n w k HD HK)].
    + (* new *)
      set (vals := map (fun p => Some (join p)) al) in *.
      assert (LV : length vals = length al) by (unfold vals; apply map_length).
      assert (HD' : NoDup (map fst (al ++ [(n, v)]))).
      { rewrite map_app. cbn [map fst]. apply NoDup_Add with (a := n) (l := map fst al).
        - rewrite <- (app_nil_r (map fst al)) at 1. apply Add_app.
        - split; [exact HD|exact SK]. }
      assert (HF' : Forall (fun p => name_ok (fst p)) (al ++ [(n, v)])).
      { apply Forall_app. split; [exact HF|]. constructor; [exact HN|constructor]. }
      assert (GO : forall en rest', length (vals ++ None :: None :: rest') = en -> exists rv e' al',
        bind (bind (set_slot (vals ++ None :: None :: rest') (S (length al)) None) (fun l => Ok (Some ((S (length al) - 1)%nat, mkEnv en (S (S (length al))) l))))
          (fun place => match place with
             | None => Ok (PAM_BUF_ERR, Some e)
             | Some (i, e') => if oom2 then bind (remove_item e' i PAM_BUF_ERR) (fun '(rv, e2) => Ok (rv, Some e2))
                else bind (set_slot (elist e') i (Some nv)) (fun l => Ok (PAM_SUCCESS, Some (mkEnv (entries e') (requested e') l))) end)
         = Ok (rv, Some e') /\ stores e' al' /\ put_effect (oom1 || oom2) (look al) nv rv (look al')).
      { intros en rest' HEn.
        assert (U1 : set_slot (vals ++ None :: None :: rest') (S (length al)) None = Ok (vals ++ None :: None :: rest')).
        { unfold set_slot. replace (vals ++ None :: None :: rest') with ((vals ++ [None]) ++ None :: rest') by (rewrite <- app_assoc; reflexivity).
          replace (S (length al)) with (length (vals ++ [None])) by (rewrite app_length; cbn [length]; lia).
          rewrite upd_app_len. reflexivity. }
        assert (U2 : set_slot (vals ++ None :: None :: rest') (length al) (Some nv) = Ok (vals ++ Some nv :: None :: rest')).
        { unfold set_slot. rewrite <- LV, upd_app_len. reflexivity. }
        rewrite U1. cbn [bind elist entries requested]. replace (S (length al) - 1)%nat with (length al) by lia.
        destruct oom2.
        - destruct (remove_stores al None [] rest' en PAM_BUF_ERR) as (e' & ER & HS'); cbv zeta; rewrite ?app_nil_r; auto.
          cbv zeta in HS'. rewrite app_nil_r in *. cbn [map app] in ER. fold vals in ER. rewrite ER. cbn [bind].
          exists PAM_BUF_ERR, e', al. split; [reflexivity|]. split; [exact HS'|].
          apply put_nomem with (n := n) (v := v); [apply orb_true_r|exact HA|left; reflexivity|intros k HK; reflexivity].
        - rewrite U2. cbn [bind].
          eexists PAM_SUCCESS, _, (al ++ [(n, v)]). split; [reflexivity|]. split.
          + unfold stores. cbn [elist entries requested]. split; [|split; [|split; [|split]]]; auto.
            * exists rest'. rewrite map_app. fold vals. cbn [map]. rewrite <- app_assoc. cbn [app]. replace (join (n, v)) with nv by exact EV. reflexivity.
            * rewrite <- HEn, !app_length. reflexivity.
            * rewrite app_length. cbn [length]. lia.
          + apply put_set with (n := n) (v := v); [exact HA|apply look_in; [exact HD'|apply in_or_app; right; left; reflexivity]|].
            intros k HK. rewrite look_app. destruct (look al k); [reflexivity|]. unfold look. cbn [find fst].
            destruct (streq n k) eqn:E; [apply streq_eq in E; congruence|reflexivity]. }
      destruct (Nat.leb_spec (entries e) (requested e)) as [HE|HE].
      * destruct oom1.
        -- cbn [bind]. exists PAM_BUF_ERR, e, al. split; [reflexivity|]. split; [repeat split; eauto|].
           apply put_nomem with (n := n) (v := v); [reflexivity|exact HA|left; reflexivity|intros k HK; reflexivity].
        -- assert (HB : (requested e <= length (elist e))%nat) by (rewrite EL, app_length, LV; cbn [length]; lia).
           apply Nat.leb_le in HB. rewrite HB. cbn [bind elist entries requested].
           assert (FE : firstn (requested e) (elist e) = vals ++ [None]).
           { rewrite EL, HReq, firstn_app. rewrite firstn_all2 by lia. rewrite LV. replace (S (length al) - length al)%nat with 1%nat by lia. reflexivity. }
           rewrite FE. assert (RP : exists rest', repeat (@None cstr) (entries e + ENV_CHUNK - requested e) = None :: rest').
           { assert (X : (entries e + ENV_CHUNK - requested e = S (entries e + 9 - requested e))%nat).
             { unfold ENV_CHUNK. apply Nat.leb_le in HB. lia. }
             rewrite X. cbn [repeat]. eauto. }
           destruct RP as (rest' & RP). rewrite HReq in *. rewrite <- app_assoc. cbn [app]. rewrite RP. apply GO.
           rewrite app_length, LV. cbn [length]. assert (X := f_equal (@length _) RP). rewrite repeat_length in X. cbn [length] in X.
           apply Nat.leb_le in HB. unfold ENV_CHUNK in *. lia.
      * cbn [bind elist entries requested]. rewrite HReq in *. destruct rest as [|x rest].
        { exfalso. rewrite <- HLen, EL, app_length, LV in HE. cbn [length] in HE. lia. }
        rewrite EL. (* the slot after the final NULL *)
        assert (US : forall y, set_slot (vals ++ None :: x :: rest) (S (length al)) y = set_slot (vals ++ None :: None :: rest) (S (length al)) y).
        { intros y. unfold set_slot. replace (S (length al)) with (length (vals ++ [None])) by (rewrite app_length; cbn [length]; lia).
          replace (vals ++ None :: x :: rest) with ((vals ++ [None]) ++ x :: rest) by (rewrite <- app_assoc; reflexivity).
          replace (vals ++ None :: None :: rest) with ((vals ++ [None]) ++ None :: rest) by (rewrite <- app_assoc; reflexivity).
          rewrite !upd_app_len. reflexivity. }
        rewrite US. apply GO. rewrite <- HLen, EL, !app_length. reflexivity.
Qed.

(** Reading. *)
Lemma getenv_stores : forall e al n, stores e al -> name_ok n -> getenv (Some e) (Some n) = Ok (look al n).
Proof.
  intros e al n HS HN. unfold getenv.
  pose proof (search_key e al n (length n) HS (le_n _)) as SK. rewrite firstn_all in SK. specialize (SK (proj2 HN)).
  destruct (search_env e n (length n)) as [[j|]| |]; [| |destruct SK|destruct SK]; cbn [bind].
  - destruct SK as (v & EJ). destruct HS as ((rest & EL) & _ & _ & _ & HD). rewrite EL, (slot_stored _ _ _ _ EJ). cbn [bind deref].
    rewrite (look_in al n v HD (nth_error_In _ _ EJ)). unfold join. cbn [fst snd]. do 2 f_equal.
    rewrite skipn_app. rewrite skipn_all2 by lia. replace (1 + length n - length n)%nat with 1%nat by lia. reflexivity.
  - rewrite (look_none _ _ SK). reflexivity.
Qed.

Lemma getenv_total : forall e al n, stores e al -> exists r, getenv (Some e) (Some n) = Ok r.
Proof.
  intros e al n ((rest & EL) & _ & ER & _ & _). unfold getenv, search_env. rewrite EL, ER.
  replace (S (length al) - 1)%nat with (length al) by lia.
  pose proof (search_spec al (None :: rest) n (length n) (length al) (le_n _) (le_n _)) as S. cbv zeta in S.
  destruct (search_from (map (fun p => Some (join p)) al ++ None :: rest) n (length n) (length al)) as [[j|]| |]; cbn [bind]; [|eauto|destruct S|destruct S].
  destruct S as (p & v & EJ & _). rewrite (slot_stored _ _ _ _ EJ). cbn [bind deref]. eauto.
Qed.

Lemma all_set_stores : forall al rest i, (i <= length al)%nat -> all_set (map (fun p => Some (join p)) al ++ rest) i = Ok true.
Proof.
  intros al rest i. induction i as [|i IH]; intros H; [reflexivity|]. cbn [all_set].
  destruct (nth_error al i) as [p|] eqn:E; [|apply nth_error_None in E; lia]. rewrite (slot_stored _ _ _ _ E). cbn [bind]. apply IH. lia.
Qed.

Lemma firstn_S_nth : forall (l : list (cstr * cstr)) i p, nth_error l i = Some p -> firstn (S i) l = firstn i l ++ [p].
Proof.
  induction l as [|a l IH]; intros [|i] p H; cbn [nth_error] in H; try discriminate.
  - injection H as ->. reflexivity.
  - change (firstn (S (S i)) (a :: l)) with (a :: firstn (S i) l). rewrite (IH i p H). reflexivity.
Qed.

Lemma copy_stores : forall al rest fails i done, (i <= length al)%nat ->
  copy_from (map (fun p => Some (join p)) al ++ rest) fails i done =
  Ok (if existsb fails (seq 0 i) then None else Some (map join (firstn i al) ++ done)).
Proof.
  intros al rest fails i. induction i as [|i IH]; intros done H; [reflexivity|]. cbn [copy_from].
  destruct (nth_error al i) as [p|] eqn:E; [|apply nth_error_None in E; lia]. rewrite (slot_stored _ _ _ _ E). cbn [bind].
  rewrite seq_S, existsb_app. cbn [Nat.add existsb]. rewrite orb_false_r. destruct (fails i); [rewrite orb_true_r; reflexivity|]. rewrite orb_false_r.
  rewrite IH by lia. destruct (existsb fails (seq 0 i)); [reflexivity|]. do 2 f_equal.
  rewrite (firstn_S_nth _ _ _ E), map_app, <- app_assoc. reflexivity.
Qed.

Lemma getenvlist_stores : forall e al oom fails, stores e al ->
  getenvlist oom fails (Some e) = Ok (if oom || existsb fails (seq 0 (length al)) then None else Some (map join al)).
Proof.
  intros e al oom fails ((rest & EL) & HLen & HReq & _ & _). unfold getenvlist.
  assert (HB : (requested e <= entries e)%nat) by (rewrite <- HLen, EL, app_length, map_length, HReq; cbn [length]; lia).
  replace (entries e <? requested e)%nat with false by (symmetry; apply Nat.ltb_ge; exact HB). rewrite EL, HReq.
  replace (S (length al) - 1)%nat with (length al) by lia. rewrite all_set_stores by lia. cbn [bind]. destruct oom; [reflexivity|].
  rewrite copy_stores by lia. rewrite firstn_all, app_nil_r. reflexivity.
Qed.

Lemma make_env_stores : forall e, make_env false false = (PAM_SUCCESS, Some e) -> stores e [].
Proof.
  intros e H. injection H as <-. unfold stores. cbn [elist entries requested]. split; [exists (repeat None 9); reflexivity|].
  repeat split; constructor.
Qed.
