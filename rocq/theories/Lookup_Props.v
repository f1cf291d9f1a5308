(** C113: searches for users and groups for modules. *)
From Coq Require Import String Ascii List Arith ZArith Lia Bool.
From Verif Require Import Base Str_Model Str_Facts Data_Model Data_Props Lookup_Model.
Import ListNotations.
Local Open Scope Z_scope.

(** * Specification *)

(** The lengths of the buffer: three. *)
Definition length_of (call : nat) : Z := 1024 * 16 ^ Z.of_nat call.
(** The search finds an entry: in one of three calls, after a short buffer or an interruption each. *)
Definition Finds (K : search) (call : nat) : Prop :=
  (call <= 2)%nat /\ k_answer K call (length_of call) = Found /\ k_memory K (length_of call) = true /\
  forall c, (c < call)%nat -> k_answer K c (length_of c) = Again /\ k_memory K (length_of c) = true.
(** The index under which a result can be kept: the first of a new name with memory; every name needs memory. *)
Definition Index (K : search) (l : list entry) (i : nat) : Prop :=
  Z.of_nat i < 2147483647 /\ ~ In (data_name (k_prefix K) i) (names l) /\ k_set K i = true /\ k_name K i = true /\
  forall j, (j < i)%nat -> k_name K j = true /\ (In (data_name (k_prefix K) j) (names l) \/ k_set K j = false).
(** Calls by modules with one handle, and the results. *)
Inductive calls : list Z -> list entry -> list event -> list entry -> list event -> Prop :=
| c_none : forall l log, calls [] l log l log
| c_lookup : forall rs l log l1 log1 K rv l2 log2 n, calls rs l log l1 log1 -> k_handle K = Some false -> lookup K l1 log1 = Ok (rv, l2, log2, n) ->
    calls (match rv with Some p => p :: rs | None => rs end) l log l2 log2
| c_login : forall rs l log l1 log1 login memory rv l2 log2, calls rs l log l1 log1 -> getlogin login memory false l1 log1 = Ok (rv, l2, log2) ->
    calls rs l log l2 log2.

(** * Facts *)

Lemma data_name_inj : forall p i j, data_name p i = data_name p j -> i = j.
Proof. intros p i j H. unfold data_name in H. apply app_inv_head in H. injection H as H. apply decimal_inj in H; lia. Qed.
Lemma get_not_in : forall n l, ~ In n (names l) -> fst (get_data false (Some n) l) = PAM_NO_MODULE_DATA.
Proof. intros n l H. apply locate_none in H. unfold get_data. now rewrite H. Qed.
Lemma get_in : forall n l, In n (names l) -> fst (get_data false (Some n) l) = PAM_SUCCESS.
Proof. intros n l H. unfold get_data. destruct (locate n l) eqn:E; [reflexivity|]. apply locate_none in E. contradiction. Qed.
Lemma in_names_dec : forall n l, {In n (names l)} + {~ In n (names l)}.
Proof. intros n l. destruct (locate n l) eqn:E; [left | right; now apply locate_none]. apply locate_some in E. destruct E as (a & b & -> & <- & _). unfold names. rewrite map_app. apply in_or_app. right. now left. Qed.
Lemma set_new : forall n p c oom l log, ~ In n (names l) -> set_data no_code 1 false oom (Some n) p c l log = if oom then Ok (PAM_BUF_ERR, l, log) else Ok (PAM_SUCCESS, mkE n p c :: l, log).
Proof. intros n p c oom l log H. apply locate_none in H. cbn [set_data]. now rewrite H. Qed.
(** The loop over the names, for modules. *)
Lemma register_module : forall K n i l log t,
  (exists j, (i <= j < i + n)%nat /\ (forall m, (i <= m < j)%nat -> k_name K m = true /\ (In (data_name (k_prefix K) m) (names l) \/ k_set K m = false)) /\
     k_name K j = true /\ k_set K j = true /\ ~ In (data_name (k_prefix K) j) (names l) /\
     register K false n i l log t = Ok (true, mkE (data_name (k_prefix K) j) (k_address K) (Some (k_clean K)) :: l, log, (t + S (j - i))%nat)) \/
  ((exists t', (t' <= t + n)%nat /\ register K false n i l log t = Ok (false, l, log, t')) /\
   forall j, (i <= j < i + n)%nat -> (forall m, (i <= m < j)%nat -> k_name K m = true) -> In (data_name (k_prefix K) j) (names l) \/ k_set K j = false \/ k_name K j = false).
Proof.
  intros K n. induction n as [|n IH]; intros i l log t; cbn [register].
  - right. split; [exists t; split; [lia | reflexivity] | intros j H; lia].
  - destruct (k_name K i) eqn:N; cbn [negb].
    2: { right. split; [exists t; split; [lia | reflexivity]|]. intros j Hj Hm. destruct (Nat.eq_dec j i) as [->|D]; [auto|]. specialize (Hm i ltac:(lia)). congruence. }
    cbv zeta.
    assert (Next : forall (P : In (data_name (k_prefix K) i) (names l) \/ k_set K i = false),
      (exists j, (i <= j < i + S n)%nat /\ (forall m, (i <= m < j)%nat -> k_name K m = true /\ (In (data_name (k_prefix K) m) (names l) \/ k_set K m = false)) /\
         k_name K j = true /\ k_set K j = true /\ ~ In (data_name (k_prefix K) j) (names l) /\
         register K false n (S i) l log (S t) = Ok (true, mkE (data_name (k_prefix K) j) (k_address K) (Some (k_clean K)) :: l, log, (t + S (j - i))%nat)) \/
      ((exists t', (t' <= t + S n)%nat /\ register K false n (S i) l log (S t) = Ok (false, l, log, t')) /\
       forall j, (i <= j < i + S n)%nat -> (forall m, (i <= m < j)%nat -> k_name K m = true) -> In (data_name (k_prefix K) j) (names l) \/ k_set K j = false \/ k_name K j = false)).
    { intros P. destruct (IH (S i) l log (S t)) as [(j & Hj & Hm & H1 & H2 & H3 & H4) | ((t' & Ht & H4) & Hn)].
      - left. exists j. split; [lia|]. split; [intros m M; destruct (Nat.eq_dec m i) as [->|D]; [auto | apply Hm; lia]|]. split; [exact H1|]. split; [exact H2|]. split; [exact H3|].
        rewrite H4. do 2 f_equal. lia.
      - right. split; [exists t'; split; [lia | exact H4]|]. intros j Hj Hm. destruct (Nat.eq_dec j i) as [->|D]; [tauto|]. apply Hn; [lia|]. intros m M. apply Hm. lia. }
    destruct (in_names_dec (data_name (k_prefix K) i) l) as [I1 | I1].
    + rewrite (get_in _ _ I1). cbn [Z.eqb]. apply Next. now left.
    + rewrite (get_not_in _ _ I1). cbn [Z.eqb]. rewrite (set_new _ _ _ _ _ _ I1). destruct (k_set K i) eqn:Sx; cbn [negb bind Z.eqb].
      * left. exists i. split; [lia|]. split; [intros m M; lia|]. split; [exact N|]. split; [exact Sx|]. split; [exact I1|]. do 2 f_equal. lia.
      * apply Next. now right.
Qed.
Lemma int_max : Z.of_nat INT_MAX = 2147483647.
Proof. unfold INT_MAX. rewrite Z2Nat.id; lia. Qed.
Opaque INT_MAX.
(** The same for the whole range. *)
Lemma register_all : forall K l log,
  (exists i, Index K l i /\ register K false INT_MAX 0 l log 0 = Ok (true, mkE (data_name (k_prefix K) i) (k_address K) (Some (k_clean K)) :: l, log, S i)) \/
  ((exists t, register K false INT_MAX 0 l log 0 = Ok (false, l, log, t)) /\ forall i, ~ Index K l i).
Proof.
  intros K l log. pose proof int_max as M. destruct (register_module K INT_MAX 0 l log 0) as [(j & Hj & Hm & H1 & H2 & H3 & H4) | ((t & _ & H4) & Hn)].
  - left. exists j. split.
    + split; [lia|]. split; [exact H3|]. split; [exact H2|]. split; [exact H1|]. intros m L. apply Hm. lia.
    + rewrite H4. do 2 f_equal. lia.
  - right. split; [exists t; exact H4|]. intros i (I1 & I2 & I3 & I4 & I5). destruct (Hn i ltac:(lia) ltac:(intros m L; apply I5; lia)) as [X | [X | X]]; [contradiction | congruence | congruence].
Qed.
(** For the application no name can be used. *)
Lemma register_app : forall K n i l log t, (forall m, k_name K m = true) -> register K true n i l log t = Ok (false, l, log, (t + n)%nat).
Proof.
  intros K n. induction n as [|n IH]; intros i l log t H; cbn [register]; [do 2 f_equal; lia|]. rewrite H. cbn [negb get_data fst Z.eqb set_data bind]. rewrite (IH (S i) l log (S t) H). do 2 f_equal. lia.
Qed.
Lemma register_app_any : forall K n i l log t, exists t', register K true n i l log t = Ok (false, l, log, t').
Proof.
  intros K n. induction n as [|n IH]; intros i l log t; cbn [register]; [eauto|]. destruct (k_name K i); cbn [negb]; [|eauto]. cbn [get_data fst Z.eqb set_data bind]. apply IH.
Qed.
(** What is done with an entry. *)
Definition keep (K : search) (l : list entry) (log : list event) : res (option Z * list entry * list event * nat) :=
  match k_handle K with
  | None => Ok (Some (k_address K), l, log, 0%nat)
  | Some from_app => bind (register K from_app INT_MAX 0 l log 0) (fun '(kept, l, log, tried) => Ok (if kept : bool then Some (k_address K) else None, l, log, tried))
  end.
Lemma find_eq : forall K fuel call len l log, find K (S fuel) call len l log =
  if negb (k_memory K len) then Ok (None, l, log, 0%nat)
  else match k_answer K call len with
  | Found => keep K l log
  | Failed => Ok (None, l, log, 0%nat)
  | Again => if Z.shiftl len LENGTH_SHIFT <? ABSURD_LENGTH then find K fuel (S call) (Z.shiftl len LENGTH_SHIFT) l log else Ok (None, l, log, 0%nat)
  end.
Proof. reflexivity. Qed.
Lemma lookup_cases : forall K l log,
  ((exists call, Finds K call) /\ lookup K l log = keep K l log) \/
  ((forall call, ~ Finds K call) /\ lookup K l log = Ok (None, l, log, 0%nat)).
Proof.
  intros K l log. unfold lookup.
  change INITIAL_LENGTH with (length_of 0). rewrite find_eq.
  change (Z.shiftl (length_of 0) LENGTH_SHIFT) with (length_of 1). change (length_of 1 <? ABSURD_LENGTH) with true.
  assert (R : forall (b : bool), (forall call, Finds K call -> False) -> True) by auto.
  destruct (k_memory K (length_of 0)) eqn:M0; cbn [negb].
  2: { right. split; [|reflexivity]. intros [|c] (_ & H1 & H2 & H3); [congruence|]. destruct (H3 0%nat ltac:(lia)) as (_ & H). congruence. }
  destruct (k_answer K 0 (length_of 0)) eqn:A0.
  - left. split; [exists 0%nat; split; [lia|]; split; [exact A0|]; split; [exact M0|]; intros c Hc; lia | reflexivity].
  - rewrite find_eq. change (Z.shiftl (length_of 1) LENGTH_SHIFT) with (length_of 2). change (length_of 2 <? ABSURD_LENGTH) with true.
    destruct (k_memory K (length_of 1)) eqn:M1; cbn [negb].
    2: { right. split; [|reflexivity]. intros [|[|c]] (_ & H1 & H2 & H3); [congruence | congruence|]. destruct (H3 1%nat ltac:(lia)) as (_ & H). congruence. }
    destruct (k_answer K 1 (length_of 1)) eqn:A1.
    + left. split; [exists 1%nat; split; [lia|]; split; [exact A1|]; split; [exact M1|]; intros c Hc; destruct c; [auto | lia] | reflexivity].
    + rewrite find_eq. change (Z.shiftl (length_of 2) LENGTH_SHIFT <? ABSURD_LENGTH) with false.
      destruct (k_memory K (length_of 2)) eqn:M2; cbn [negb].
      2: { right. split; [|reflexivity]. intros [|[|[|c]]] (L & H1 & H2 & H3); [congruence | congruence | congruence | lia]. }
      destruct (k_answer K 2 (length_of 2)) eqn:A2.
      * left. split; [exists 2%nat; split; [lia|]; split; [exact A2|]; split; [exact M2|]; intros c Hc; destruct c as [|[|c]]; [auto | auto | lia] | reflexivity].
      * right. split; [|reflexivity]. intros [|[|[|c]]] (L & H1 & _); [congruence | congruence | congruence | lia].
      * right. split; [|reflexivity]. intros [|[|[|c]]] (L & H1 & _); [congruence | congruence | congruence | lia].
    + right. split; [|reflexivity]. intros [|[|c]] (_ & H1 & H2 & H3); [congruence | congruence|]. destruct (H3 1%nat ltac:(lia)) as (H & _). congruence.
  - right. split; [|reflexivity]. intros [|c] (_ & H1 & H2 & H3); [congruence|]. destruct (H3 0%nat ltac:(lia)) as (H & _). congruence.
Qed.

(** * Theorems *)

(** C113: what a search of a module returns and keeps: the entry, under a new name, if it is found and can be kept, and nothing otherwise. No data of before are touched and no cleanup function is called. *)
Theorem lookup_entry : forall K l log, k_handle K = Some false ->
  (forall call i, Finds K call -> Index K l i ->
     lookup K l log = Ok (Some (k_address K), mkE (data_name (k_prefix K) i) (k_address K) (Some (k_clean K)) :: l, log, S i)) /\
  ((forall call, ~ Finds K call) \/ (forall i, ~ Index K l i) -> exists n, lookup K l log = Ok (None, l, log, n)).
Proof.
  intros K l log Hh. pose proof (lookup_cases K l log) as C. pose proof (register_all K l log) as R. unfold keep in C. rewrite Hh in C.
  assert (U : forall i j, Index K l i -> Index K l j -> i = j).
  { intros i j (_ & A1 & A2 & A3 & A4) (_ & B1 & B2 & B3 & B4). destruct (lt_eq_lt_dec i j) as [[L | L] | L]; [|exact L|].
    - destruct (B4 i L) as (_ & [X | X]); [contradiction | congruence].
    - destruct (A4 j L) as (_ & [X | X]); [contradiction | congruence]. }
  split.
  - intros call i Hf Hi. destruct C as [(_ & ->) | (N & _)]; [|exfalso; exact (N call Hf)]. destruct R as [(j & Hj & ->) | (_ & N)]; [|exfalso; exact (N i Hi)].
    rewrite (U i j Hi Hj). reflexivity.
  - intros [N | N].
    + destruct C as [((c & Hc) & _) | (_ & ->)]; [exfalso; exact (N c Hc) | eauto].
    + destruct C as [(_ & ->) | (_ & ->)]; [|eauto]. destruct R as [(j & Hj & _) | ((t & ->) & _)]; [exfalso; exact (N j Hj) | cbn [bind]; eauto].
Qed.
(** C113: with memory, a module gets every entry that fits into 262144 bytes, with at most one name more than there are data, and no larger one. *)
Theorem lookup_size : forall K need l log, k_handle K = Some false -> (forall len, k_memory K len = true) -> (forall i, k_name K i = true) -> (forall i, k_set K i = true) ->
  (forall c len, k_answer K c len = if len <? need then Again else Found) -> Z.of_nat (length l) < 2147483647 ->
  (need <= 262144 -> exists l' n, lookup K l log = Ok (Some (k_address K), l', log, n) /\ (n <= S (length l))%nat) /\
  (262144 < need -> lookup K l log = Ok (None, l, log, 0%nat)).
Proof.
  intros K need l log Hh Hm Hn Hs Ha Hl. split; intros H.
  - assert (F : exists call, Finds K call).
    { destruct (Z.le_gt_cases need 1024) as [A | A]; [exists 0%nat | destruct (Z.le_gt_cases need 16384) as [B | B]; [exists 1%nat | exists 2%nat]];
        (split; [lia|]); rewrite Ha; (split; [destruct (Z.ltb_spec (length_of 0) need), (Z.ltb_spec (length_of 1) need), (Z.ltb_spec (length_of 2) need); unfold length_of in *; cbn in *; first [lia | reflexivity]|]);
        (split; [apply Hm|]); intros c Hc; rewrite Ha; (split; [|apply Hm]); (destruct c as [|[|c]]; [| |lia]);
        match goal with |- (if ?x <? need then _ else _) = _ => destruct (Z.ltb_spec x need); [reflexivity | unfold length_of in *; cbn in *; lia] end. }
    destruct F as (call & F).
    assert (X : exists i, Index K l i /\ (i <= length l)%nat).
    { assert (Y : exists i, (i <= length l)%nat /\ ~ In (data_name (k_prefix K) i) (names l)).
      { destruct (Forall_Exists_dec (fun i => In (data_name (k_prefix K) i) (names l)) (fun i => in_names_dec (data_name (k_prefix K) i) l) (seq 0 (S (length l)))) as [A | A].
        - exfalso. assert (L : (length (map (data_name (k_prefix K)) (seq 0 (S (length l)))) <= length (names l))%nat).
          { apply NoDup_incl_length.
            - apply FinFun.Injective_map_NoDup; [intros i j E; exact (data_name_inj _ _ _ E) | apply seq_NoDup].
            - intros x Hx. apply in_map_iff in Hx. destruct Hx as (i & <- & Hi). rewrite Forall_forall in A. now apply A. }
          unfold names in L. rewrite !map_length, seq_length in L. lia.
        - apply Exists_exists in A. destruct A as (i & Hi & A). apply in_seq in Hi. exists i. split; [lia | exact A]. }
      destruct Y as (i & Hi & Y).
      assert (Z1 : exists j, (j <= i)%nat /\ ~ In (data_name (k_prefix K) j) (names l) /\ forall m, (m < j)%nat -> In (data_name (k_prefix K) m) (names l)).
      { clear Hi. induction i as [i IH] using lt_wf_ind. destruct (Forall_Exists_dec (fun i => In (data_name (k_prefix K) i) (names l)) (fun i => in_names_dec (data_name (k_prefix K) i) l) (seq 0 i)) as [A | A].
        - exists i. split; [lia|]. split; [exact Y|]. intros m Hm1. rewrite Forall_forall in A. apply A, in_seq. lia.
        - apply Exists_exists in A. destruct A as (k & Hk & A). apply in_seq in Hk. destruct (IH k ltac:(lia) A) as (j & J1 & J2 & J3). exists j. split; [lia | auto]. }
      destruct Z1 as (j & J1 & J2 & J3). exists j. split; [|lia]. split; [lia|]. split; [exact J2|]. split; [apply Hs|]. split; [apply Hn|]. intros m L. split; [apply Hn | left; now apply J3]. }
    destruct X as (i & Hi & Li). eexists. exists (S i). split; [apply (proj1 (lookup_entry K l log Hh) call i F Hi) | lia].
  - destruct (lookup_cases K l log) as [((c & Hc & Hf & _) & _) | (_ & E)]; [|exact E]. rewrite Ha in Hf. exfalso.
    destruct (Z.ltb_spec (length_of c) need); [discriminate|]. destruct c as [|[|[|c]]]; unfold length_of in *; cbn in *; lia.
Qed.
(** C113: every search ends with a result; without a handle nothing is kept, and with a result the entry was found. *)
Theorem lookup_ends : forall K l log, exists rv l' n, lookup K l log = Ok (rv, l', log, n) /\ (rv = None -> l' = l) /\ (k_handle K = None -> l' = l) /\
  (forall p, rv = Some p -> p = k_address K /\ exists call, Finds K call) /\ (k_handle K = None -> (exists call, Finds K call) -> rv = Some (k_address K)).
Proof.
  intros K l log. destruct (lookup_cases K l log) as [(F & ->) | (N & ->)].
  - unfold keep. destruct (k_handle K) as [[|]|].
    + destruct (register_app_any K INT_MAX 0 l log 0) as (t & ->). cbn [bind]. exists None, l, t. repeat split; try discriminate.
    + destruct (register_all K l log) as [(i & Hi & ->) | ((t & ->) & _)]; cbn [bind].
      * eexists. eexists. eexists. split; [reflexivity|]. split; [discriminate|]. split; [discriminate|]. split; [intros p Hp; injection Hp as <-; auto | discriminate].
      * eexists. eexists. eexists. split; [reflexivity|]. split; [reflexivity|]. split; [discriminate|]. split; discriminate.
    + eexists. eexists. eexists. split; [reflexivity|]. split; [discriminate|]. split; [reflexivity|]. split; [intros p Hp; injection Hp as <-; auto | reflexivity].
  - eexists. eexists. eexists. split; [reflexivity|]. split; [reflexivity|]. split; [reflexivity|]. split; [discriminate|]. intros _ (c & Hc). exfalso. exact (N c Hc).
Qed.
Lemma login_cases : forall login memory l log rv l' log', getlogin login memory false l log = Ok (rv, l', log') ->
  log' = log /\ (l' = l \/ exists p, rv = Some p /\ ~ In (lit "_pammodutil_getlogin") (names l) /\ l' = mkE (lit "_pammodutil_getlogin") p (Some 0%nat) :: l).
Proof.
  intros login memory l log rv l' log'. unfold getlogin. destruct (in_names_dec (lit "_pammodutil_getlogin") l) as [I1 | I1].
  - unfold get_data. destruct (locate _ l) as [e|] eqn:E; [|apply locate_none in E; contradiction]. intros H. injection H as <- <- <-. auto.
  - unfold get_data. rewrite (proj2 (locate_none _ _) I1). destruct login as [p|]; [|intros H; injection H as <- <- <-; auto].
    rewrite (set_new _ _ _ _ _ _ I1). destruct memory; cbn [negb bind Z.eqb]; intros H; injection H as <- <- <-; [|auto]. split; [reflexivity|]. right. exists p. auto.
Qed.
(** C113: results stay valid: whatever modules search for later with the handle, no result and no other data is released before the handle ends, and then each result is, once for every search. *)
Theorem lookup_alive : forall rs l log l' log', calls rs l log l' log' ->
  log' = log /\ (exists new, l' = (new ++ l)%list) /\ (forall p, In p rs -> exists e, In e l' /\ d_data e = p /\ d_cleanup e <> None) /\
  (NoDup (names l) -> NoDup (names l')) /\
  forall status, exists log1, free_data no_code l' status log' = Ok (log' ++ log1)%list /\
    forall p, (count_occ Z.eq_dec rs p <= count_occ Z.eq_dec (map (fun x => snd (fst x)) (cleaned log1)) p)%nat.
Proof.
  intros rs l log l' log' H.
  assert (X : log' = log /\ (exists new, l' = (new ++ l)%list) /\ (forall p, In p rs -> exists e, In e l' /\ d_data e = p /\ d_cleanup e <> None) /\ (NoDup (names l) -> NoDup (names l')) /\
    forall p, (count_occ Z.eq_dec rs p <= count_occ Z.eq_dec (map snd (live l')) p)%nat).
  { induction H as [l log | rs l log l1 log1 K rv l2 log2 n H IH Hh E | rs l log l1 log1 login memory rv l2 log2 H IH E].
    - split; [reflexivity|]. split; [now exists []|]. split; [intros p []|]. split; [auto|]. intros p. cbn. lia.
    - destruct IH as (E1 & (new & E2) & E3 & E4 & E5). destruct (lookup_cases K l1 log1) as [(F & C) | (_ & C)]; rewrite C in E.
      + unfold keep in E. rewrite Hh in E. destruct (register_all K l1 log1) as [(i & (_ & Hi & _) & R) | ((t & R) & _)]; rewrite R in E; cbn [bind] in E; injection E as <- <- <- <-.
        * split; [exact E1|]. split; [exists (mkE (data_name (k_prefix K) i) (k_address K) (Some (k_clean K)) :: new); now rewrite E2|]. split; [|split].
          -- intros p [<- | Hp]; [eexists; split; [now left|]; split; [reflexivity | discriminate]|]. destruct (E3 p Hp) as (e & He & Hq). exists e. split; [now right | exact Hq].
          -- intros D. cbn [names map d_name]. constructor; [exact Hi | now apply E4].
          -- intros p. change (map snd (live (mkE (data_name (k_prefix K) i) (k_address K) (Some (k_clean K)) :: l1))) with (k_address K :: map snd (live l1)).
             cbn [count_occ]. specialize (E5 p). destruct (Z.eq_dec (k_address K) p); lia.
        * split; [exact E1|]. split; [now exists new|]. auto.
      + injection E as <- <- <- <-. split; [exact E1|]. split; [now exists new|]. auto.
    - destruct IH as (E1 & (new & E2) & E3 & E4 & E5). apply login_cases in E. destruct E as (-> & [-> | (p & _ & Hi & ->)]).
      + split; [exact E1|]. split; [now exists new|]. auto.
      + split; [exact E1|]. split; [eexists (_ :: new); now rewrite E2|]. split; [|split].
        * intros q Hq. destruct (E3 q Hq) as (e & He & Hr). exists e. split; [now right | exact Hr].
        * intros D. cbn [names map d_name]. constructor; [exact Hi | now apply E4].
        * intros q. change (map snd (live (mkE (lit "_pammodutil_getlogin") p (Some 0%nat) :: l1))) with (p :: map snd (live l1)). cbn [count_occ]. specialize (E5 q). destruct (Z.eq_dec p q); lia. }
  destruct X as (E1 & E2 & E3 & E4 & E5). split; [exact E1|]. split; [exact E2|]. split; [exact E3|]. split; [exact E4|].
  intros status. destruct (free_run no_code status l' l' log') as (log1 & F & Cl). exists log1. split; [exact F|].
  intros p. specialize (E5 p). rewrite Cl. rewrite map_map. cbn [fst snd]. exact E5.
Qed.
Lemma register_short : forall K n i l log t, (forall m, k_name K m = true) -> (forall m, k_set K m = false) -> register K false n i l log t = Ok (false, l, log, (t + n)%nat).
Proof.
  intros K n. induction n as [|n IH]; intros i l log t H1 H2; cbn [register]; [do 2 f_equal; lia|]. rewrite H1. cbn [negb]. cbv zeta.
  assert (E : register K false n (S i) l log (S t) = Ok (false, l, log, (t + S n)%nat)) by (rewrite (IH (S i) l log (S t) H1 H2); do 2 f_equal; lia).
  destruct (in_names_dec (data_name (k_prefix K) i) l) as [I1 | I1].
  - rewrite (get_in _ _ I1). exact E.
  - rewrite (get_not_in _ _ I1). cbn [Z.eqb]. rewrite (set_new _ _ _ _ _ _ I1), H2. cbn [negb bind Z.eqb]. exact E.
Qed.
(** C113: an application gets no entry for its handle, though the entry is found; and there is a price (also for a module when there is no memory for the data): all 2147483647 names are tried. *)
Theorem lookup_application : forall K call l log, Finds K call -> (forall i, k_name K i = true) ->
  k_handle K = Some true \/ (k_handle K = Some false /\ forall i, k_set K i = false) ->
  exists n, lookup K l log = Ok (None, l, log, n) /\ Z.of_nat n = 2147483647.
Proof.
  intros K call l log F Hn Hh. exists INT_MAX. split; [|apply int_max]. destruct (lookup_cases K l log) as [(_ & ->) | (N & _)]; [|exfalso; exact (N call F)].
  unfold keep. destruct Hh as [-> | (-> & Hs)]; [rewrite (register_app K INT_MAX 0 l log 0 Hn) | rewrite (register_short K INT_MAX 0 l log 0 Hn Hs)]; reflexivity.
Qed.
Definition passwd_of (handle : option bool) (set : bool) (need : Z) : search :=
  mkSearch (getpwnam_prefix (lit "ann")) 1%nat handle (fun _ => true) 4096 (fun _ len => if len <? need then Again else Found) (fun _ => true) (fun _ => set).
(** C113: so the effort is not bounded by the data: a handle without any. *)
Theorem lookup_effort_refuted : exists K n, k_handle K = Some false /\ lookup K [] [] = Ok (None, [], [], n) /\ Z.of_nat n = 2147483647.
Proof.
  exists (passwd_of (Some false) false 300).
  destruct (lookup_application (passwd_of (Some false) false 300) 0 [] []) as (n & E1 & E2); [| reflexivity | right; split; reflexivity | exists n; auto].
  split; [lia|]. split; [reflexivity|]. split; [reflexivity|]. intros c Hc. lia.
Qed.
(** C113: the login name is the same for the whole life of the handle, whatever the terminal says later; it is not kept for an application, and not without memory. *)
Theorem getlogin_same : forall login memory l log p l' log', getlogin login memory false l log = Ok (Some p, l', log') ->
  forall rs l1 log1, calls rs l' log' l1 log1 -> forall login2 memory2, getlogin login2 memory2 false l1 log1 = Ok (Some p, l1, log1).
Proof.
  intros login memory l log p l' log' H rs l1 log1 C login2 memory2.
  assert (P : exists e, locate (lit "_pammodutil_getlogin") l' = Some e /\ d_data e = p).
  { revert H. unfold getlogin. destruct (in_names_dec (lit "_pammodutil_getlogin") l) as [I1 | I1].
    - unfold get_data. destruct (locate (lit "_pammodutil_getlogin") l) as [e|] eqn:E; [|apply locate_none in E; contradiction]. intros H. injection H as H <- <-. exists e. auto.
    - unfold get_data. rewrite (proj2 (locate_none _ _) I1). destruct login as [q|]; [|discriminate].
      rewrite (set_new _ _ _ _ _ _ I1). destruct memory; cbn [negb bind Z.eqb]; [|discriminate]. intros H. injection H as <- <- <-. exists (mkE (lit "_pammodutil_getlogin") q (Some 0%nat)). split; [|reflexivity].
      exact (locate_mid (lit "_pammodutil_getlogin") [] (mkE (lit "_pammodutil_getlogin") q (Some 0%nat)) l (fun x => x) eq_refl). }
  assert (Q : exists e, locate (lit "_pammodutil_getlogin") l1 = Some e /\ d_data e = p).
  { clear H. induction C as [l2 log2 | rs l2 log2 l3 log3 K rv l4 log4 n C IH Hh E | rs l2 log2 l3 log3 lg m rv l4 log4 C IH E]; [exact P | |].
    - specialize (IH P). destruct (lookup_cases K l3 log3) as [(F & X) | (_ & X)]; rewrite X in E; [|injection E as <- <- <- <-; exact IH].
      unfold keep in E. rewrite Hh in E. destruct (register_all K l3 log3) as [(i & (_ & Hi & _) & R) | ((t & R) & _)]; rewrite R in E; cbn [bind] in E; injection E as <- <- <- <-; [|exact IH].
      destruct IH as (e & He & Hp). exists e. split; [|exact Hp]. cbn [locate d_name].
      destruct (streq (lit "_pammodutil_getlogin") (data_name (k_prefix K) i)) eqn:Q; destruct (streq (data_name (k_prefix K) i) (lit "_pammodutil_getlogin")) eqn:Q2;
        try (apply streq_eq in Q; exfalso; apply Hi; rewrite <- Q; destruct (locate_some _ _ _ He) as (a & b & -> & HE & _); unfold names; rewrite map_app; apply in_or_app; right; left; exact HE);
        try (apply streq_eq in Q2; exfalso; apply Hi; rewrite Q2; destruct (locate_some _ _ _ He) as (a & b & -> & HE & _); unfold names; rewrite map_app; apply in_or_app; right; left; exact HE).
      exact He.
    - specialize (IH P). apply login_cases in E. destruct E as (_ & [-> | (q & _ & Hi & _)]); [exact IH|]. exfalso. apply Hi. destruct IH as (e & He & _).
      destruct (locate_some _ _ _ He) as (a & b & -> & HE & _). unfold names. rewrite map_app. apply in_or_app. right. left. exact HE. }
  destruct Q as (e & He & <-). unfold getlogin, get_data. now rewrite He.
Qed.

(** * Examples *)
Definition held : list entry := [mkE (data_name (getpwnam_prefix (lit "ann")) 0) 512 (Some 1%nat); mkE (lit "other") 77 None].
Lemma held_index : Index (passwd_of (Some false) true 20000) held 1.
Proof. split; [lia|]. split; [vm_compute; intros [H | [H | []]]; discriminate|]. split; [reflexivity|]. split; [reflexivity|]. intros j Hj. assert (j = 0%nat) as -> by lia. split; [reflexivity|]. left. now left. Qed.
Lemma held_finds : forall h s, Finds (passwd_of h s 20000) 2.
Proof. intros h s. split; [lia|]. split; [reflexivity|]. split; [reflexivity|]. intros [|[|c]] Hc; [split; reflexivity | split; reflexivity | lia]. Qed.
(** An entry of 20000 bytes: two short buffers; the first name is in use. *)
Example lookup_entry_example : lookup (passwd_of (Some false) true 20000) held [] = Ok (Some 4096, mkE (lit "_pammodutil_getpwnam_ann_1") 4096 (Some 1%nat) :: held, [], 2%nat).
Proof. exact (proj1 (lookup_entry (passwd_of (Some false) true 20000) held [] eq_refl) 2%nat 1%nat (held_finds _ _) held_index). Qed.
Example lookup_size_example : (exists l' n, lookup (passwd_of (Some false) true 262144) held [] = Ok (Some 4096, l', [], n) /\ (n <= 3)%nat) /\
  lookup (passwd_of (Some false) true 262145) held [] = Ok (None, held, [], 0%nat).
Proof.
  split.
  - apply (proj1 (lookup_size (passwd_of (Some false) true 262144) 262144 held [] eq_refl (fun _ => eq_refl) (fun _ => eq_refl) (fun _ => eq_refl) (fun _ _ => eq_refl) ltac:(cbn; lia))). lia.
  - apply (proj2 (lookup_size (passwd_of (Some false) true 262145) 262145 held [] eq_refl (fun _ => eq_refl) (fun _ => eq_refl) (fun _ => eq_refl) (fun _ _ => eq_refl) ltac:(cbn; lia))). lia.
Qed.
Example lookup_application_example : exists n, lookup (passwd_of (Some true) true 20000) held [] = Ok (None, held, [], n) /\ Z.of_nat n = 2147483647.
Proof. apply (lookup_application _ 2); [apply held_finds | reflexivity | now left]. Qed.
Example lookup_ends_example : lookup (passwd_of None true 20000) held [] = Ok (Some 4096, held, [], 0%nat).
Proof. reflexivity. Qed.
Lemma held_calls : calls [4096] held [] (mkE (lit "_pammodutil_getlogin") 640 (Some 0%nat) :: mkE (lit "_pammodutil_getpwnam_ann_1") 4096 (Some 1%nat) :: held) [].
Proof.
  apply (c_login [4096] held [] (mkE (lit "_pammodutil_getpwnam_ann_1") 4096 (Some 1%nat) :: held) [] (Some 640) true (Some 640)); [|reflexivity].
  exact (c_lookup [] held [] held [] (passwd_of (Some false) true 20000) (Some 4096) _ [] _ (c_none held []) eq_refl lookup_entry_example).
Qed.
(** A search and the login name; then the handle ends. *)
Example lookup_alive_example : exists log1, free_data no_code (mkE (lit "_pammodutil_getlogin") 640 (Some 0%nat) :: mkE (lit "_pammodutil_getpwnam_ann_1") 4096 (Some 1%nat) :: held) 0 [] = Ok log1 /\
  (1 <= count_occ Z.eq_dec (map (fun x => snd (fst x)) (cleaned log1)) 4096%Z)%nat.
Proof. destruct (lookup_alive _ _ _ _ _ held_calls) as (_ & _ & _ & _ & H). destruct (H 0) as (log1 & E & C). exists log1. split; [exact E | exact (C 4096)]. Qed.
Example getlogin_same_example : getlogin (Some 640) true false held [] = Ok (Some 640, mkE (lit "_pammodutil_getlogin") 640 (Some 0%nat) :: held, []) /\
  getlogin (Some 999) true false (mkE (lit "_pammodutil_getlogin") 640 (Some 0%nat) :: held) [] = Ok (Some 640, mkE (lit "_pammodutil_getlogin") 640 (Some 0%nat) :: held, []).
Proof. split; [reflexivity|]. exact (getlogin_same (Some 640) true held [] 640 _ [] eq_refl [] _ _ (c_none _ _) (Some 999) true). Qed.
Example names_example : data_name (getspnam_prefix (lit "ann")) 10 = lit "_pammodutil_getspnam_ann_10" /\ data_name (getgrnam_prefix (lit "wheel")) 0 = lit "_pammodutil_getgrnam_wheel_0" /\
  data_name (getpwuid_prefix 1000) 2 = lit "_pammodutil_getpwuid_1000_2" /\ data_name (getgrgid_prefix 0) 3 = lit "_pammodutil_getgrgid_0_3".
Proof. vm_compute. auto. Qed.

Print Assumptions lookup_entry. Print Assumptions lookup_size. Print Assumptions lookup_ends. Print Assumptions lookup_alive. Print Assumptions lookup_application.
Print Assumptions lookup_effort_refuted. Print Assumptions getlogin_same.
