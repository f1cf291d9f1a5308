(** C20: module data. *)
From Coq Require Import String Ascii List Arith ZArith Lia Bool Permutation.
From Verif Require Import Base Data_Model.
Import ListNotations.
Local Open Scope Z_scope.

(** Cleanup functions that do not store data themselves. *)
Inductive quiet : cprog -> Prop :=
| q_ret : quiet CRet
| q_get : forall n k, (forall a, quiet (k a)) -> quiet (CGet n k).

(** A call of pam_set_data by a module: name, pointer, cleanup function. *)
Definition put := (cstr * Z * option nat)%type.

(** Calls made, in order, with those that succeeded kept; the list of data and the events so far. *)
Inductive stored (code : nat -> Z -> Z -> cprog) : list put -> list entry -> list event -> Prop :=
| s_none : stored code [] [] []
| s_ok : forall ps l log n d c oom l' log' fuel, stored code ps l log ->
    set_data code fuel false oom (Some n) d c l log = Ok (PAM_SUCCESS, l', log') -> stored code (ps ++ [(n, d, c)]) l' log'
| s_failed : forall ps l log n d c oom rv l' log' fuel, stored code ps l log -> rv <> PAM_SUCCESS ->
    set_data code fuel false oom n d c l log = Ok (rv, l', log') -> stored code ps l' log'.

(** Specification: the pointer stored last under a name; the objects with a cleanup function; the cleanup calls made. *)
Definition last_for (n : cstr) (ps : list put) : option Z :=
  fold_left (fun acc (p : put) => let '(m, d, _) := p in if streq m n then Some d else acc) ps None.
Definition to_clean (ps : list put) : list (nat * Z) :=
  flat_map (fun p : put => let '(_, d, c) := p in match c with Some f => [(f, d)] | None => [] end) ps.
Definition cleaned (log : list event) : list (nat * Z * Z) :=
  flat_map (fun e => match e with ECleanup f d s => [(f, d, s)] | EGot _ _ => [] end) log.
Definition live (l : list entry) : list (nat * Z) :=
  flat_map (fun e => match d_cleanup e with Some f => [(f, d_data e)] | None => [] end) l.

Lemma cleaned_app : forall a b, cleaned (a ++ b) = cleaned a ++ cleaned b.
Proof. intros a b. unfold cleaned. apply flat_map_app. Qed.
Lemma to_clean_app : forall a b, to_clean (a ++ b) = to_clean a ++ to_clean b.
Proof. intros a b. unfold to_clean. apply flat_map_app. Qed.

Definition names (l : list entry) : list cstr := map d_name l.

Lemma locate_some : forall n l e, locate n l = Some e -> exists a b, l = a ++ e :: b /\ d_name e = n /\ ~ In n (names a).
Proof.
  intros n l. induction l as [|x l IH]; intros e H; cbn [locate] in H; [discriminate|]. destruct (streq (d_name x) n) eqn:E.
  - injection H as <-. apply streq_eq in E. exists [], l. auto.
  - apply streq_neq in E. destruct (IH e H) as (a & b & -> & H2 & H3). exists (x :: a), b. split; [reflexivity|]. split; [exact H2|].
    cbn. intros [X|X]; auto.
Qed.

Lemma locate_none : forall n l, locate n l = None <-> ~ In n (names l).
Proof.
  intros n l. induction l as [|x l IH]; cbn [locate]; [split; [intros _ []|reflexivity]|]. destruct (streq (d_name x) n) eqn:E.
  - apply streq_eq in E. split; [discriminate|]. intros H. exfalso. apply H. left. exact E.
  - apply streq_neq in E. rewrite IH. cbn. tauto.
Qed.

Lemma locate_mid : forall n a e b, ~ In n (names a) -> d_name e = n -> locate n (a ++ e :: b) = Some e.
Proof.
  intros n a e b. induction a as [|x a IH]; intros H E; cbn [app locate].
  - subst n. rewrite streq_refl. reflexivity.
  - destruct (streq (d_name x) n) eqn:X; [apply streq_eq in X; exfalso; apply H; left; exact X|]. apply IH; [intros Y; apply H; right; exact Y|exact E].
Qed.

Lemma overwrite_mid : forall n d c a e b, ~ In n (names a) -> d_name e = n -> overwrite n d c (a ++ e :: b) = a ++ mkE n d c :: b.
Proof.
  intros n d c a e b. induction a as [|x a IH]; intros H E; cbn [app overwrite].
  - subst n. rewrite streq_refl. reflexivity.
  - destruct (streq (d_name x) n) eqn:X; [apply streq_eq in X; exfalso; apply H; left; exact X|]. f_equal. apply IH; [intros Y; apply H; right; exact Y|exact E].
Qed.

Lemma quiet_run : forall (setd : option cstr -> Z -> option nat -> list entry -> list event -> res (Z * list entry * list event)) from_app p l log, quiet p ->
  exists log', (fix run (p : cprog) (l : list entry) (log : list event) : res (list entry * list event) :=
    match p with
    | CRet => Ok (l, log)
    | CSet n' d' c' k => bind (setd n' d' c' l log) (fun '(rv, l, log) => run (k rv) l log)
    | CGet n' k => let a := get_data from_app n' l in run (k a) l (log ++ [EGot n' a])
    end) p l log = Ok (l, log ++ log') /\ cleaned log' = [].
Proof.
  intros setd from_app p l log H. revert log. induction H as [|n k H IH]; intros log.
  - exists []. rewrite app_nil_r. auto.
  - destruct (IH (get_data from_app n l) (log ++ [EGot n (get_data from_app n l)])) as (log' & E & EC).
    exists (EGot n (get_data from_app n l) :: log'). split; [|exact EC]. etransitivity; [exact E|]. rewrite <- app_assoc. reflexivity.
Qed.

(** One call by a module. *)
Lemma set_cases : forall code fuel oom n d c l log, (forall f x s, quiet (code f x s)) ->
  (exists a e b log', l = a ++ e :: b /\ d_name e = n /\ ~ In n (names a) /\
     set_data code (S fuel) false oom (Some n) d c l log = Ok (0, a ++ mkE n d c :: b, log ++ log') /\
     cleaned log' = match d_cleanup e with Some f => [(f, d_data e, DATA_REPLACE)] | None => [] end) \/
  (~ In n (names l) /\ set_data code (S fuel) false oom (Some n) d c l log = if oom then Ok (5, l, log) else Ok (0, mkE n d c :: l, log)).
Proof.
  intros code fuel oom n d c l log HQ. cbn [set_data]. destruct (locate n l) as [e|] eqn:EL.
  - left. destruct (locate_some _ _ _ EL) as (a & b & -> & HE & HN). destruct (d_cleanup e) as [f|] eqn:EC.
    + destruct (quiet_run (set_data code fuel false false) false (code f (d_data e) (DATA_REPLACE + PAM_SUCCESS)) (a ++ e :: b)
        (log ++ [ECleanup f (d_data e) (DATA_REPLACE + PAM_SUCCESS)]) (HQ _ _ _)) as (log' & E & ECl).
      exists a, e, b, (ECleanup f (d_data e) (DATA_REPLACE + PAM_SUCCESS) :: log'). repeat (split; [auto; fail|]). split.
      * match goal with |- bind ?x _ = _ => replace x with (Ok (a ++ e :: b, (log ++ [ECleanup f (d_data e) (DATA_REPLACE + PAM_SUCCESS)]) ++ log')) by (symmetry; exact E) end.
        cbn [bind]. rewrite (overwrite_mid n d c a e b HN HE), <- app_assoc. reflexivity.
      * rewrite EC. change (cleaned (ECleanup f (d_data e) (DATA_REPLACE + PAM_SUCCESS) :: log')) with ((f, d_data e, DATA_REPLACE) :: cleaned log'). rewrite ECl. reflexivity.
    + exists a, e, b, []. repeat (split; [auto; fail|]). split; [|rewrite EC; reflexivity]. cbn [bind]. rewrite (overwrite_mid n d c a e b HN HE), app_nil_r. reflexivity.
  - right. split; [apply locate_none; exact EL|]. reflexivity.
Qed.

(** Invariant of a history. *)
Lemma stored_inv : forall code ps l log, (forall f x s, quiet (code f x s)) -> stored code ps l log ->
  NoDup (names l) /\
  (forall n, last_for n ps = match locate n l with Some e => Some (d_data e) | None => None end) /\
  Permutation (to_clean ps) (map fst (cleaned log) ++ live l) /\
  Forall (fun x => snd x = DATA_REPLACE) (cleaned log).
Proof.
  intros code ps l log HQ H. induction H as [|ps l log n d c oom l' log' fuel H IH E|ps l log n d c oom rv l' log' fuel H IH HR E].
  - split; [constructor|]. split; [reflexivity|]. split; [constructor|constructor].
  - destruct IH as (ND & HL & HP & HF). destruct fuel as [|fuel]; [discriminate|].
    assert (LA : forall m, last_for m (ps ++ [(n, d, c)]) = if streq n m then Some d else last_for m ps).
    { intros m. unfold last_for. rewrite fold_left_app. reflexivity. }
    destruct (set_cases code fuel oom n d c l log HQ) as [(a & e & b & lg & -> & HE & HN & ES & EC)|(HN & ES)]; rewrite ES in E.
    + injection E as <- <-. assert (NE : names (a ++ mkE n d c :: b) = names (a ++ e :: b)) by (unfold names; rewrite !map_app; cbn [map d_name]; congruence).
      split; [rewrite NE; exact ND|]. split; [|split].
      * intros m. rewrite LA. destruct (streq n m) eqn:X.
        { apply streq_eq in X. subst m. rewrite locate_mid; auto. }
        rewrite HL. apply streq_neq in X.
        assert (G : forall x y, d_name x = n -> d_name y = n -> locate m (a ++ x :: b) = locate m (a ++ y :: b)).
        { intros x y E1 E2. clear -E1 E2 X. induction a as [|z a IH]; cbn [app locate]; [|destruct (streq (d_name z) m); auto].
          destruct (streq (d_name x) m) eqn:S1; [apply streq_eq in S1; congruence|]. destruct (streq (d_name y) m) eqn:S2; [apply streq_eq in S2; congruence|reflexivity]. }
        rewrite (G e (mkE n d c) HE eq_refl). reflexivity.
      * rewrite to_clean_app, cleaned_app, map_app, EC. unfold live in *. rewrite flat_map_app in *. cbn [flat_map d_cleanup d_data] in *.
        set (M := map fst (cleaned log)) in *. set (A := flat_map _ a) in *. set (B := flat_map _ b) in *.
        eapply Permutation_trans; [apply Permutation_app_tail; exact HP|].
        replace (to_clean [(n, d, c)]) with (match c with Some f => [(f, d)] | None => [] end) by (destruct c; reflexivity).
        set (X := match d_cleanup e with Some f => [(f, d_data e)] | None => [] end). set (Y := match c with Some f => [(f, d)] | None => [] end).
        replace (map fst (match d_cleanup e with Some f => [(f, d_data e, DATA_REPLACE)] | None => [] end)) with X by (unfold X; destruct (d_cleanup e); reflexivity).
        rewrite <- !app_assoc. apply Permutation_app_head. 
        rewrite (app_assoc X A), (app_assoc A X). apply Permutation_app; apply Permutation_app_comm.
      * rewrite cleaned_app, EC. apply Forall_app. split; [exact HF|]. destruct (d_cleanup e); repeat constructor.
    + destruct oom; [discriminate|]. injection E as <- <-. split; [constructor; assumption|]. split; [|split; [|exact HF]].
      * intros m. rewrite LA. cbn [locate d_name]. destruct (streq n m); [reflexivity|apply HL].
      * rewrite to_clean_app. unfold live in *. cbn [flat_map d_cleanup d_data]. 
        replace (to_clean [(n, d, c)]) with (match c with Some f => [(f, d)] | None => [] end) by (destruct c; reflexivity).
        set (Y := match c with Some f => [(f, d)] | None => [] end). eapply Permutation_trans; [apply Permutation_app_tail; exact HP|].
        rewrite <- app_assoc. apply Permutation_app_head. apply Permutation_app_comm.
  - destruct fuel as [|fuel]; [discriminate|]. destruct n as [n|].
    + destruct (set_cases code fuel oom n d c l log HQ) as [(a & e & b & lg & -> & HE & HN & ES & EC)|(HN & ES)]; rewrite ES in E.
      * injection E as <- _ _. congruence.
      * destruct oom; [injection E as _ <- <-; exact IH|injection E as <- _ _; congruence].
    + injection E as _ <- <-. exact IH.
Qed.

(** pam_get_data returns what was stored last under the name. *)
Theorem get_data_returns_last_stored : forall code ps l log n, (forall f x s, quiet (code f x s)) -> stored code ps l log ->
  get_data false (Some n) l = match last_for n ps with Some d => (0, Some d) | None => (18, None) end.
Proof.
  intros code ps l log n HQ H. destruct (stored_inv _ _ _ _ HQ H) as (_ & HL & _). unfold get_data. rewrite (HL n). destruct (locate n l); reflexivity.
Qed.

(** Two cleanup functions of the examples: one that does nothing, one that asks for the data. *)
Definition two_codes (f : nat) (data status : Z) : cprog :=
  match f with O => CRet | _ => CGet (Some (lit "x")) (fun _ => CRet) end.
Lemma two_codes_quiet : forall f x s, quiet (two_codes f x s).
Proof. intros [|f] x s; [constructor|constructor; intros a; constructor]. Qed.

Definition data_ex : res (Z * list entry * list event) :=
  bind (set_data two_codes 9 false false (Some (lit "x")) 5 (Some 1%nat) [] []) (fun '(_, l, log) =>
  bind (set_data two_codes 9 false false (Some (lit "y")) 6 (Some 0%nat) l log) (fun '(_, l, log) =>
  set_data two_codes 9 false false (Some (lit "x")) 7 None l log)).
Example get_data_example : exists l log, data_ex = Ok (0, l, log) /\
  stored two_codes [(lit "x", 5, Some 1%nat); (lit "y", 6, Some 0%nat); (lit "x", 7, None)] l log /\
  get_data false (Some (lit "x")) l = (0, Some 7).
Proof.
  do 2 eexists. split; [vm_compute; reflexivity|]. split; [|vm_compute; reflexivity].
  apply (s_ok two_codes [(lit "x", 5, Some 1%nat); (lit "y", 6, Some 0%nat)] [mkE (lit "y") 6 (Some 0%nat); mkE (lit "x") 5 (Some 1%nat)] []
    (lit "x") 7 None false) with (fuel := 9%nat); [|vm_compute; reflexivity].
  apply (s_ok two_codes [(lit "x", 5, Some 1%nat)] [mkE (lit "x") 5 (Some 1%nat)] [] (lit "y") 6 (Some 0%nat) false) with (fuel := 9%nat); [|vm_compute; reflexivity].
  apply (s_ok two_codes [] [] [] (lit "x") 5 (Some 1%nat) false) with (fuel := 9%nat); [constructor|vm_compute; reflexivity].
Qed.

(** At pam_end cleanup functions get no access, whatever they try: each remaining object is cleaned up once. *)
Lemma refused_run : forall code p l log, exists log', run_cleanup code 1 true p l log = Ok (l, log ++ log') /\ cleaned log' = [].
Proof.
  intros code p. induction p as [|n d c k IH|n k IH]; intros l log.
  - exists []. rewrite app_nil_r. auto.
  - cbn [run_cleanup set_data bind]. apply IH.
  - cbn [run_cleanup]. cbv zeta. destruct (IH (get_data true n l) l (log ++ [EGot n (get_data true n l)])) as (log' & E & EC).
    exists (EGot n (get_data true n l) :: log'). rewrite E, <- app_assoc. auto.
Qed.

Lemma free_run : forall code status rest l log, exists log', free_entries code rest l status log = Ok (log ++ log') /\
  cleaned log' = map (fun x => (fst x, snd x, status)) (live rest).
Proof.
  intros code status rest. induction rest as [|e rest IH]; intros l log; cbn [free_entries].
  - exists []. rewrite app_nil_r. auto.
  - destruct (d_cleanup e) as [f|] eqn:EC.
    + destruct (refused_run code (code f (d_data e) status) l (log ++ [ECleanup f (d_data e) status])) as (l1 & E1 & C1). rewrite E1. cbn [bind].
      destruct (IH l ((log ++ [ECleanup f (d_data e) status]) ++ l1)) as (l2 & E2 & C2). rewrite E2.
      exists (ECleanup f (d_data e) status :: l1 ++ l2). split; [rewrite <- !app_assoc; reflexivity|].
      unfold live. cbn [flat_map]. rewrite EC. cbn [app map fst snd]. change (cleaned (ECleanup f (d_data e) status :: l1 ++ l2)) with ((f, d_data e, status) :: cleaned (l1 ++ l2)).
      rewrite cleaned_app, C1. cbn [app]. f_equal. exact C2.
    + cbn [bind]. destruct (IH l log) as (l2 & E2 & C2). exists l2. split; [exact E2|]. unfold live. cbn [flat_map]. rewrite EC. exact C2.
Qed.

(** Every object stored with a cleanup function is passed to that function exactly once over the life of
    the handle: with PAM_DATA_REPLACE when replaced, with the status given to pam_end otherwise; the latter
    are the objects stored last under their names, newest name first. *)
Theorem cleanup_exactly_once : forall code ps l log status, (forall f x s, quiet (code f x s)) -> stored code ps l log ->
  exists final, free_data code l status log = Ok (log ++ final) /\
    Permutation (to_clean ps) (map fst (cleaned (log ++ final))) /\
    (forall x, In x (cleaned log) -> snd x = 536870912) /\
    (forall x, In x (cleaned final) -> snd x = status) /\
    (exists ns, NoDup ns /\ (forall n, In n ns <-> last_for n ps <> None) /\
       exists cs, length cs = length ns /\ map fst (cleaned final) =
         flat_map (fun nc => match snd nc, last_for (fst nc) ps with Some f, Some d => [(f, d)] | _, _ => [] end) (combine ns cs)).
Proof.
  intros code ps l log status HQ H. destruct (stored_inv _ _ _ _ HQ H) as (ND & HL & HP & HF).
  destruct (free_run code status l l log) as (final & E & EC). exists final. split; [exact E|]. split; [|split; [|split]].
  - rewrite cleaned_app, map_app, EC, map_map. eapply Permutation_trans; [exact HP|]. apply Permutation_app_head.
    replace (map (fun x => fst (fst x, snd x, status)) (live l)) with (live l); [apply Permutation_refl|].
    rewrite <- (map_id (live l)) at 1. apply map_ext. intros [a b]. reflexivity.
  - intros x HI. rewrite Forall_forall in HF. exact (HF x HI).
  - intros x HI. rewrite EC in HI. apply in_map_iff in HI. destruct HI as (y & <- & _). reflexivity.
  - exists (names l). split; [exact ND|]. split.
    + intros n. rewrite HL. destruct (locate n l) as [e|] eqn:EL.
      * split; [discriminate|]. intros _. destruct (locate_some _ _ _ EL) as (a & b & -> & HE & _). unfold names. rewrite map_app. apply in_or_app. right. left. exact HE.
      * split; [|congruence]. intros HI. apply locate_none in EL. contradiction.
    + exists (map d_cleanup l). unfold names. split; [rewrite !map_length; reflexivity|]. rewrite EC, map_map.
      replace (map (fun x => fst (fst x, snd x, status)) (live l)) with (live l) by (rewrite <- (map_id (live l)) at 1; apply map_ext; intros [a b]; reflexivity).
      assert (G : forall a b, l = a ++ b -> live b = flat_map (fun nc => match snd nc, last_for (fst nc) ps with Some f, Some d => [(f, d)] | _, _ => [] end) (combine (map d_name b) (map d_cleanup b))).
      { intros a b. revert a. induction b as [|e b IH]; intros a EL; [reflexivity|]. unfold live. cbn [map combine flat_map fst snd].
        rewrite HL. rewrite EL. assert (NI : ~ In (d_name e) (names a)).
        { rewrite EL in ND. unfold names in ND. rewrite map_app in ND. cbn [map] in ND. apply NoDup_remove_2 in ND. intros X. apply ND. apply in_or_app. left. exact X. }
        rewrite (locate_mid (d_name e) a e b NI eq_refl). f_equal. apply (IH (a ++ [e])). rewrite <- app_assoc. exact EL. }
      exact (G [] l eq_refl).
Qed.

Example exactly_once_example : exists l log final, data_ex = Ok (0, l, log) /\
  free_data two_codes l 7 log = Ok (log ++ final) /\ cleaned (log ++ final) = [(1%nat, 5, 536870912); (0%nat, 6, 7)].
Proof. do 3 eexists. split; [vm_compute; reflexivity|]. split; vm_compute; reflexivity. Qed.

(** Codes and refusals. *)
Theorem data_codes : forall code fuel oom n d c l log rv l' log', (forall f x s, quiet (code f x s)) ->
  set_data code fuel false oom (Some n) d c l log = Ok (rv, l', log') ->
  (rv = 0 /\ get_data false (Some n) l' = (0, Some d)) \/
  (rv = 5 /\ oom = true /\ l' = l /\ log' = log /\ get_data false (Some n) l = (18, None)).
Proof.
  intros code fuel oom n d c l log rv l' log' HQ H. destruct fuel as [|fuel]; [discriminate|]. unfold get_data.
  destruct (set_cases code fuel oom n d c l log HQ) as [(a & e & b & lg & -> & HE & HN & ES & EC)|(HN & ES)]; rewrite ES in H.
  - injection H as <- <- <-. left. split; [reflexivity|]. rewrite locate_mid; auto.
  - destruct oom; injection H as <- <- <-.
    + right. apply locate_none in HN. rewrite HN. auto.
    + left. split; [reflexivity|]. cbn [locate d_name d_data]. rewrite streq_refl. reflexivity.
Qed.

Example data_codes_example : set_data two_codes 1 false true (Some (lit "x")) 5 None [] [] = Ok (5, [], []).
Proof. reflexivity. Qed.

(** An application gets at no data and changes none. *)
Theorem application_has_no_module_data : forall code fuel oom n d c l log,
  set_data code (S fuel) true oom n d c l log = Ok (4, l, log) /\ get_data true n l = (4, None).
Proof. intros. split; reflexivity. Qed.

Example no_module_data_example : get_data true (Some (lit "x")) [mkE (lit "x") 5 None] = (4, None).
Proof. reflexivity. Qed.

(** "Never while still retrievable" is false: the cleanup function of a replaced object can still fetch it. *)
Theorem cleaned_object_not_retrievable_refuted : exists code ps l log f d, (forall f x s, quiet (code f x s)) /\
  stored code ps l log /\ log = [ECleanup f d 536870912; EGot (Some (lit "x")) (0, Some d)].
Proof.
  exists two_codes, [(lit "x", 5, Some 1%nat); (lit "x", 7, None)], [mkE (lit "x") 7 None],
    [ECleanup 1 5 536870912; EGot (Some (lit "x")) (0, Some 5)], 1%nat, 5. split; [exact two_codes_quiet|]. split; [|reflexivity].
  apply (s_ok two_codes [(lit "x", 5, Some 1%nat)] [mkE (lit "x") 5 (Some 1%nat)] [] (lit "x") 7 None false) with (fuel := 9%nat); [|vm_compute; reflexivity].
  apply (s_ok two_codes [] [] [] (lit "x") 5 (Some 1%nat) false) with (fuel := 9%nat); [constructor|vm_compute; reflexivity].
Qed.

(** Nor is the cleanup called once when the cleanup function itself stores under the same name: here the
    object 5 is cleaned up twice. *)
Definition once_more (f : nat) (data status : Z) : cprog :=
  match f with
  | O => CGet (Some (lit "done")) (fun a => match a with
           | (0, _) => CRet
           | _ => CSet (Some (lit "done")) 1 None (fun _ => CSet (Some (lit "x")) 9 None (fun _ => CRet))
           end)
  | _ => CRet
  end.
Theorem cleanup_exactly_once_refuted : exists code ps l log, stored code ps l log /\
  to_clean ps = [(0%nat, 5)] /\ map fst (cleaned log) = [(0%nat, 5); (0%nat, 5)].
Proof.
  exists once_more, [(lit "x", 5, Some 0%nat); (lit "x", 7, None)]. do 2 eexists. split.
  - apply (s_ok once_more [(lit "x", 5, Some 0%nat)] [mkE (lit "x") 5 (Some 0%nat)] [] (lit "x") 7 None false) with (fuel := 9%nat); [|vm_compute; reflexivity].
    apply (s_ok once_more [] [] [] (lit "x") 5 (Some 0%nat) false) with (fuel := 9%nat); [constructor|vm_compute; reflexivity].
  - split; vm_compute; reflexivity.
Qed.

(** A cleanup function that stores under its own name unconditionally recurses without end. *)
Definition again (f : nat) (data status : Z) : cprog := CSet (Some (lit "x")) 9 (Some 0%nat) (fun _ => CRet).
Theorem storing_terminates_refuted : exists code l n, forall fuel, set_data code fuel false false (Some n) 7 None l [] = OutOfFuel.
Proof.
  exists again, [mkE (lit "x") 5 (Some 0%nat)], (lit "x").
  assert (G : forall fuel d c log, set_data again fuel false false (Some (lit "x")) d c [mkE (lit "x") 5 (Some 0%nat)] log = OutOfFuel).
  { induction fuel as [|fuel IH]; intros d c log; [reflexivity|]. cbn [set_data]. change (locate (lit "x") [mkE (lit "x") 5 (Some 0%nat)]) with (Some (mkE (lit "x") 5 (Some 0%nat))).
    cbn [d_cleanup d_data again]. rewrite IH. reflexivity. }
  intros fuel. apply G.
Qed.

Print Assumptions get_data_returns_last_stored.
Print Assumptions cleanup_exactly_once.
Print Assumptions data_codes.
Print Assumptions application_has_no_module_data.
Print Assumptions cleaned_object_not_retrievable_refuted.
Print Assumptions cleanup_exactly_once_refuted.
Print Assumptions storing_terminates_refuted.
