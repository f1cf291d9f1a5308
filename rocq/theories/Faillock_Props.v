(** Theorems on pam_faillock (C34). *)
From Coq Require Import String Ascii List Arith ZArith Lia Bool Permutation.
From Verif Require Import Base Faillock_Model.
Import ListNotations.
Local Open Scope Z_scope.

(** * What the manual says, over plain lists of the times of failures *)
Definition newest (ts : list Z) : Z := fold_right Z.max 0 ts.
(** The failures within the interval before the newest one. *)
Definition recent (o : opts) (ts : list Z) : list Z := filter (fun t => newest ts - t <? fail_interval o) ts.
Definition exempt (o : opts) : bool := is_admin o && negb (deny_root o).
Definition wait (o : opts) : Z := if is_admin o then root_unlock_time o else unlock_time o.
Definition enough (o : opts) (ts : list Z) : bool := (0 <? deny o) && (deny o <=? Z.of_nat (length (recent o ts))).
(** Too many failures, and the waiting time since the newest is not over (0: it never is). *)
Definition locked (o : opts) (ts : list Z) (now : Z) : bool :=
  negb (exempt o) && enough o ts && ((wait o =? 0) || (now <=? newest ts + wait o)).

(** The events: the module is called as preauth, authfail, authsucc, or for account management. *)
Inductive event := Pre | Fail | Succ | Acct.
(** The answer to an event and the failures remembered after it. *)
Definition spec_step (o : opts) (e : event) (now : Z) (ts : list Z) : Z * list Z :=
  match e with
  | Pre => (if locked o ts now then PAM_AUTH_ERR else PAM_SUCCESS, ts)
  | Fail => if locked o ts now then (PAM_AUTH_ERR, ts)
            else (PAM_IGNORE, now :: (if negb (exempt o) && enough o ts then [] else ts))
  | Succ => if locked o ts now then (PAM_AUTH_ERR, ts) else (PAM_SUCCESS, [])
  | Acct => (PAM_SUCCESS, [])
  end.
Fixpoint spec_run (o : opts) (h : list (event * sys)) (ts : list Z) : list Z * list Z :=
  match h with
  | [] => ([], ts)
  | (e, y) :: h => let '(r, ts) := spec_step o e (s_now y) ts in let '(rs, ts) := spec_run o h ts in (r :: rs, ts)
  end.

(** The module over a history. *)
Definition step (o : opts) (e : event) (y : sys) (f : tfile) : res (Z * tfile) :=
  match e with Pre => preauth o y f | Fail => authfail o y f | Succ => authsucc o y f | Acct => acct o y f end.
Fixpoint run (o : opts) (h : list (event * sys)) (f : tfile) : res (list Z * tfile) :=
  match h with
  | [] => Ok ([], f)
  | (e, y) :: h => bind (step o e y f) (fun '(r, f) => bind (run o h f) (fun '(rs, f) => Ok (r :: rs, f)))
  end.

(** Nothing fails. *)
Definition works (y : sys) : Prop :=
  s_open y = OpOk /\ s_create y = OpOk /\ (forall n, s_read y n = false) /\ s_write y = WrOk /\ s_realloc_fails y = false /\ s_trunc_fails y = false /\ s_audit_fails y = false.
(** The clock does not go back and shows times after 1970 and before 2^63. *)
Fixpoint clock_ok (last : Z) (h : list (event * sys)) : Prop :=
  match h with [] => True | (_, y) :: h => last <= s_now y < 2 ^ 63 /\ clock_ok (s_now y) h end.
Definition opts_ok (o : opts) : Prop :=
  0 <= deny o < 65536 /\ 0 <= fail_interval o <= 604800 /\ 0 <= unlock_time o <= 604800 /\ 0 <= root_unlock_time o <= 604800.

(** * Reading *)
Lemma read_loop_all : forall k fails n rest acc fuel, (forall n, fails n = false) -> (k <= 15)%nat -> length acc = (64 * (15 - k))%nat -> (k < fuel)%nat ->
  read_loop fuel fails n rest acc = Ok (Some (acc ++ firstn (64 * (k + 1)) rest)%list).
Proof.
  induction k as [|k IH]; intros fails n rest acc fuel NF K L F; (destruct fuel as [|fuel]; [lia|]); cbn [read_loop]; rewrite NF.
  - change (64 * (0 + 1))%nat with CHUNK. destruct (Nat.leb_spec MAX_RECORDS (length (acc ++ firstn CHUNK rest))) as [M|M]; [reflexivity|].
    destruct (Nat.eqb_spec (length (firstn CHUNK rest)) CHUNK) as [E|E]; [|reflexivity].
    rewrite app_length, E, L in M. unfold CHUNK, MAX_RECORDS in M. lia.
  - assert (NM : (MAX_RECORDS <=? length (acc ++ firstn CHUNK rest))%nat = false).
    { apply Nat.leb_gt. rewrite app_length, L. pose proof (firstn_le_length CHUNK rest). unfold CHUNK, MAX_RECORDS in *. lia. }
    rewrite NM. replace (64 * (S k + 1))%nat with (CHUNK + 64 * (k + 1))%nat by (unfold CHUNK; lia).
    destruct (Nat.eqb_spec (length (firstn CHUNK rest)) CHUNK) as [E|E].
    + rewrite IH; [|exact NF|lia|rewrite app_length, E, L; unfold CHUNK; lia|lia].
      rewrite <- app_assoc. f_equal. f_equal. f_equal. rewrite firstn_length in E.
      rewrite <- (firstn_skipn CHUNK rest) at 3. rewrite firstn_app, firstn_length, firstn_firstn.
      replace (Nat.min (CHUNK + 64 * (k + 1)) CHUNK) with CHUNK by lia. rewrite E. f_equal. f_equal. lia.
    + rewrite firstn_length in E. rewrite !firstn_all2 by lia. reflexivity.
Qed.
Lemma read_all : forall fails f, (forall n, fails n = false) -> read_tally fails f = Ok (Some (firstn MAX_RECORDS f)).
Proof. intros fails f NF. unfold read_tally. rewrite (read_loop_all 15); [reflexivity|exact NF|lia|reflexivity|lia]. Qed.

(** * The decision *)
Definition times (l : list tally) : list Z := map t_time (filter t_valid l).
Definition time_ok (l : list tally) : Prop := Forall (fun r => 0 <= t_time r < 2 ^ 63) l.

Lemma latest_newest : forall l m, fold_left (fun m r => if t_valid r && (m <? t_time r) then t_time r else m) l m = fold_right Z.max m (times l).
Proof.
  intros l. induction l as [|r l IH]; intro m; [reflexivity|]. cbn [fold_left]. rewrite IH. unfold times. cbn [filter].
  destruct (t_valid r); cbn [andb map fold_right]; [|reflexivity].
  assert (G : forall ts a b, fold_right Z.max (Z.max a b) ts = Z.max b (fold_right Z.max a ts)).
  { induction ts as [|t ts IHt]; intros a b; cbn [fold_right]; [lia|]. rewrite IHt. lia. }
  rewrite <- G. f_equal. destruct (Z.ltb_spec m (t_time r)); lia.
Qed.
Lemma latest_of_newest : forall l, latest_of l = newest (times l).
Proof. intro l. apply latest_newest. Qed.
Lemma newest_ge : forall ts t, In t ts -> t <= newest ts.
Proof. unfold newest. induction ts as [|a ts IH]; intros t I; [contradiction|]. cbn [fold_right]. destruct I as [->|I]; [lia|specialize (IH t I); lia]. Qed.
Lemma newest_nonneg : forall ts, 0 <= newest ts.
Proof. unfold newest. induction ts as [|a ts IH]; cbn [fold_right]; lia. Qed.
Lemma newest_in : forall ts, newest ts = 0 \/ In (newest ts) ts.
Proof. unfold newest. induction ts as [|a ts IH]; [left; reflexivity|]. cbn [fold_right]. destruct (Z.max_spec a (fold_right Z.max 0 ts)) as [[L E]|[L E]]; rewrite E; [destruct IH as [IH|IH]; [left; exact IH|right; right; exact IH]|right; left; reflexivity]. Qed.
Lemma newest_lub : forall ts b, 0 <= b -> Forall (fun t => t <= b) ts -> newest ts <= b.
Proof. unfold newest. induction ts as [|a ts IH]; intros b B F; cbn [fold_right]; [exact B|]. inversion F; subst. specialize (IH b B ltac:(assumption)). lia. Qed.

Lemma u64_id : forall z, 0 <= z < 2 ^ 64 -> u64 z = z.
Proof. intros z H. unfold u64. apply Z.mod_small. exact H. Qed.
Lemma in_times : forall l t, In t (times l) -> exists r, In r l /\ t_valid r = true /\ t_time r = t.
Proof. intros l t I. unfold times in I. apply in_map_iff in I. destruct I as (r & <- & I). apply filter_In in I. exists r. tauto. Qed.
Lemma times_in : forall l r, In r l -> t_valid r = true -> In (t_time r) (times l).
Proof. intros l r I V. unfold times. apply in_map. apply filter_In. auto. Qed.
Lemma time_bounds : forall l t, time_ok l -> In t (times l) -> 0 <= t < 2 ^ 63.
Proof. intros l t F I. apply in_times in I. destruct I as (r & I & _ & <-). unfold time_ok in F. rewrite Forall_forall in F. apply F. exact I. Qed.
Lemma newest_bound : forall l, time_ok l -> 0 <= newest (times l) < 2 ^ 63.
Proof.
  intros l F. split; [apply newest_nonneg|]. destruct (newest_in (times l)) as [->|I]; [reflexivity|]. apply (time_bounds l _ F I).
Qed.

Lemma failures_recent : forall o l, time_ok l -> failures_of o (newest (times l)) l = length (recent o (times l)).
Proof.
  intros o l F. unfold failures_of, recent. pose proof (newest_bound l F) as NB.
  assert (A : forall r, In r l -> t_valid r = true -> t_time r <= newest (times l)) by (intros r I V; apply newest_ge, times_in; assumption).
  set (m := newest (times l)) in *. clearbody m.
  assert (G : forall n, fold_left (fun n r => if t_valid r && (u64 (m - t_time r) <? fail_interval o) then S n else n) l n = Nat.add n (length (filter (fun t => m - t <? fail_interval o) (times l)))); [|apply G].
  unfold times. revert F A. induction l as [|r l IH]; intros F A n; [cbn; lia|]. inversion F as [|? ? Fr Fl]; subst. cbn [fold_left filter]. rewrite IH; [|exact Fl|intros; apply A; [right|]; assumption].
  destruct (t_valid r) eqn:V; cbn [andb map filter]; [|lia]. rewrite u64_id by (specialize (A r (or_introl eq_refl) V); lia).
  destruct (m - t_time r <? fail_interval o); cbn [length]; lia.
Qed.

(** What check_tally decides about records, when nothing fails. *)
Lemma check_decides : forall o y pre f, opts_ok o -> works y -> 0 <= s_now y < 2 ^ 63 -> time_ok (match f with Some l => l | None => [] end) -> (length (match f with Some l => l | None => [] end) <= MAX_RECORDS)%nat ->
  let recs := match f with Some l => l | None => [] end in
  check_tally o y pre f = Ok (mkChecked (if locked o (times recs) (s_now y) then PAM_AUTH_ERR else PAM_SUCCESS) recs (match f with Some _ => true | None => false end)
    (negb (exempt o) && enough o (times recs) && negb (locked o (times recs) (s_now y)))).
Proof.
  intros o y pre f OO (W1 & W2 & W3 & W4 & W5 & W6 & W7) NB T L recs. unfold check_tally. rewrite W1. cbn [open_tally].
  destruct f as [l|].
  2:{ subst recs. unfold locked, enough. cbn [times filter map recent length]. change (Z.of_nat 0) with 0. destruct OO as [OO _]. destruct (Z.ltb_spec 0 (deny o)) as [D|D]; cbn [andb]; [destruct (Z.leb_spec (deny o) 0) as [D2|D2]; [lia|]|]; rewrite ?andb_false_r; reflexivity. }
  subst recs. rewrite (read_all _ _ W3), (firstn_all2 l L). cbn [bind]. unfold locked, exempt.
  destruct (is_admin o && negb (deny_root o)) eqn:X; cbn [negb andb]; [reflexivity|].
  rewrite latest_of_newest, (failures_recent o l T). unfold enough. destruct OO as (OD & OI & OU & OR).
  replace (negb (deny o =? 0)) with (0 <? deny o) by (destruct (Z.ltb_spec 0 (deny o)), (Z.eqb_spec (deny o) 0); cbn; lia || reflexivity).
  pose proof (newest_bound l T) as LB. set (m := newest (times l)) in *. clearbody m.
  destruct ((0 <? deny o) && (deny o <=? Z.of_nat (length (recent o (times l))))) eqn:EN; cbn [andb negb]; [|reflexivity].
  rewrite !u64_id by lia. unfold wait.
  assert (C : negb (is_admin o) && negb (unlock_time o =? 0) && (m + unlock_time o <? s_now y) || is_admin o && negb (root_unlock_time o =? 0) && (m + root_unlock_time o <? s_now y)
     = negb (((if is_admin o then root_unlock_time o else unlock_time o) =? 0) || (s_now y <=? m + (if is_admin o then root_unlock_time o else unlock_time o)))).
  { destruct (is_admin o); cbn [negb andb orb]; rewrite ?orb_false_r, negb_orb, Z.leb_antisym, negb_involutive; reflexivity. }
  rewrite C. destruct (((if is_admin o then root_unlock_time o else unlock_time o) =? 0) || (s_now y <=? m + (if is_admin o then root_unlock_time o else unlock_time o))); cbn [negb]; [reflexivity|].
  rewrite W7, andb_false_r. reflexivity.
Qed.

(** C34: a preauth call denies exactly when the file has too many recent failures and the waiting time is not over. *)
Theorem preauth_decides : forall o y l, opts_ok o -> works y -> 0 <= s_now y < 2 ^ 63 -> time_ok l -> (length l <= MAX_RECORDS)%nat ->
  preauth o y (Some l) = Ok (if locked o (times l) (s_now y) then PAM_AUTH_ERR else PAM_SUCCESS, Some l).
Proof. intros o y l OO W NB T L. unfold preauth. rewrite (check_decides o y true (Some l)) by assumption. reflexivity. Qed.

(** * Writing *)
Definition marked (o : opts) (now : Z) (u : bool) (r : tally) : tally :=
  if u || (fail_interval o <=? u64 (now - t_time r)) then mkTally false (t_kind r) (t_source r) (t_time r) else r.
Lemma marked_time : forall o now u r, t_time (marked o now u r) = t_time r.
Proof. intros. unfold marked. destruct (u || _); reflexivity. Qed.

Lemma mark_loop_spec : forall o now u l i ot od fl, Forall (fun r => 0 < t_time r) l -> 0 <= ot ->
  exists od' fl', mark_loop o now u i l ot od fl = (map (marked o now u) l, od', fl') /\
    ((od' = od /\ (l = [] \/ 0 < ot /\ forall r, In r l -> ot <= t_time r)) \/
     (exists k r, od' = (i + k)%nat /\ nth_error l k = Some r /\ (forall r', In r' l -> t_time r <= t_time r') /\ (ot = 0 \/ t_time r < ot))).
Proof.
  intros o now u l. induction l as [|r l IH]; intros i ot od fl P O; cbn [mark_loop map].
  - eexists _, _. split; [reflexivity|]. left. auto.
  - inversion P as [|? ? Pr Pl]; subst.
    set (older := (ot =? 0) || (t_time r <? ot)).
    destruct (IH (S i) (if older then t_time r else ot) (if older then i else od) (if u || (fail_interval o <=? u64 (now - t_time r)) then fl else S fl) Pl ltac:(destruct older; lia)) as (od' & fl' & E & H).
    rewrite E. eexists _, _. split; [reflexivity|].
    assert (OL : older = true /\ (ot = 0 \/ t_time r < ot) \/ older = false /\ 0 < ot /\ ot <= t_time r).
    { subst older. destruct (Z.eqb_spec ot 0); cbn [orb]; [left; auto|]. destruct (Z.ltb_spec (t_time r) ot); [left; auto|right; split; [reflexivity|lia]]. }
    clearbody older. destruct OL as [[-> OL]|(-> & O1 & O2)].
    + right. destruct H as [[-> H]|(k & r1 & -> & N & M & H)].
      * exists 0%nat, r. split; [lia|]. split; [reflexivity|]. split; [|exact OL]. intros r' [<-|I]; [lia|]. destruct H as [->|[_ H]]; [contradiction|apply H; exact I].
      * exists (S k), r1. split; [lia|]. split; [exact N|]. split; [|lia]. intros r' [<-|I]; [lia|apply M; exact I].
    + destruct H as [[-> H]|(k & r1 & -> & N & M & H)].
      * left. split; [reflexivity|]. right. split; [exact O1|]. intros r' [<-|I]; [lia|]. destruct H as [->|[_ H]]; [contradiction|apply H; exact I].
      * right. exists (S k), r1. split; [lia|]. split; [exact N|]. split; [|lia]. intros r' [<-|I]; [lia|apply M; exact I].
Qed.

Lemma upd_split : forall A (l : list A) k x r, nth_error l k = Some r -> exists l1 l2, l = (l1 ++ r :: l2)%list /\ upd l k x = Some (l1 ++ x :: l2)%list.
Proof.
  intros A l. induction l as [|a l IH]; intros [|k] x r N; cbn in N; try discriminate.
  - injection N as ->. exists [], l. split; reflexivity.
  - destruct (IH k x r N) as (l1 & l2 & -> & U). exists (a :: l1), l2. split; [reflexivity|]. cbn [upd app]. rewrite U. reflexivity.
Qed.

Lemma times_app : forall a b, times (a ++ b) = (times a ++ times b)%list.
Proof. intros. unfold times. rewrite filter_app, map_app. reflexivity. Qed.
Lemma times_cons_valid : forall r l, t_valid r = true -> times (r :: l) = t_time r :: times l.
Proof. intros r l V. unfold times. cbn [filter]. rewrite V. reflexivity. Qed.
Lemma times_cons_invalid : forall r l, t_valid r = false -> times (r :: l) = times l.
Proof. intros r l V. unfold times. cbn [filter]. rewrite V. reflexivity. Qed.
Lemma times_marked : forall o now u l, Forall (fun r => 0 < t_time r <= now) l -> now < 2 ^ 63 ->
  times (map (marked o now u) l) = filter (fun t => negb u && (now - t <? fail_interval o)) (times l).
Proof.
  intros o now u l F NB. induction l as [|r l IH]; [reflexivity|]. inversion F as [|? ? Fr Fl]; subst. cbn [map].
  destruct (t_valid r) eqn:V.
  - rewrite (times_cons_valid r l V). cbn [filter]. unfold marked at 1. rewrite u64_id by lia. rewrite <- (IH Fl).
    destruct u; cbn [orb negb andb]; [apply times_cons_invalid; reflexivity|].
    rewrite Z.leb_antisym. destruct (now - t_time r <? fail_interval o); cbn [negb]; [apply times_cons_valid; exact V|apply times_cons_invalid; reflexivity].
  - rewrite (times_cons_invalid r l V), <- (IH Fl). apply times_cons_invalid. unfold marked. destruct (u || _); [reflexivity|exact V].
Qed.

(** * The file and the remembered failures *)
Record rel (o : opts) (recs : list tally) (ts : list Z) (last : Z) : Prop := mkRel {
  r_recs : Forall (fun r => 0 < t_time r <= last) recs;
  r_ts : Forall (fun t => 0 < t <= last) ts;
  r_order : forall r r', In r recs -> In r' recs -> t_valid r = false -> t_valid r' = true -> t_time r < t_time r';
  r_len : (length recs <= MAX_RECORDS)%nat;
  r_newest : newest (times recs) = newest ts;
  r_recent : Permutation (recent o (times recs)) (recent o ts);
  r_empty : ts = [] -> recs = []
}.
Lemma rel_enough : forall o recs ts last, rel o recs ts last -> enough o (times recs) = enough o ts.
Proof. intros o recs ts last R. unfold enough. rewrite (Permutation_length (r_recent _ _ _ _ R)). reflexivity. Qed.
Lemma rel_locked : forall o recs ts last now, rel o recs ts last -> locked o (times recs) now = locked o ts now.
Proof. intros o recs ts last now R. unfold locked. rewrite (rel_enough _ _ _ _ R), (r_newest _ _ _ _ R). reflexivity. Qed.
Lemma rel_nil : forall o last, rel o [] [] last.
Proof. intros. split; try (constructor); try reflexivity; try (intros; contradiction). cbn. lia. Qed.
Lemma rel_later : forall o recs ts last last', rel o recs ts last -> last <= last' -> rel o recs ts last'.
Proof.
  intros o recs ts last last' [A B C D E F G] L. split; try assumption; [clear -A L; induction A|clear -B L; induction B]; constructor; try assumption; lia.
Qed.
Lemma rel_time_ok : forall o recs ts last, rel o recs ts last -> last < 2 ^ 63 -> time_ok recs.
Proof. intros o recs ts last R L. unfold time_ok. pose proof (r_recs _ _ _ _ R) as A. clear -A L. induction A; constructor; try assumption. lia. Qed.

Lemma filter_filter_and : forall A (p q : A -> bool) l, filter p (filter q l) = filter (fun x => q x && p x) l.
Proof. induction l as [|a l IH]; [reflexivity|]. cbn [filter]. destruct (q a); cbn [filter andb]; rewrite IH; reflexivity. Qed.
Lemma filter_none : forall A (l : list A), filter (fun _ => false) l = [].
Proof. induction l; [reflexivity|assumption]. Qed.
Lemma filter_perm : forall A (p : A -> bool) l l', Permutation l l' -> Permutation (filter p l) (filter p l').
Proof.
  intros A p l l' P. induction P; cbn [filter]; try constructor.
  - destruct (p x); [constructor|]; assumption.
  - destruct (p x), (p y); try apply Permutation_refl. apply perm_swap.
  - eapply Permutation_trans; eassumption.
Qed.
Lemma newest_perm : forall l l', Permutation l l' -> newest l = newest l'.
Proof. intros l l' P. unfold newest. induction P; cbn [fold_right]; lia. Qed.

(** The write of a failure at [now] with the records marked. *)
Lemma write_rel : forall o y recs ts last (unl : bool) old is_open (f : tfile), 0 < deny o <= 1024 -> 0 < fail_interval o -> works y -> last <= s_now y -> s_now y < 2 ^ 63 -> 0 < s_now y ->
  rel o recs ts last -> (is_open = true /\ f = Some old \/ is_open = false /\ f = None /\ recs = []) ->
  (if unl then enough o ts = true /\ newest ts < s_now y else enough o ts = false) ->
  exists recs' rv, write_tally o y recs is_open unl f = Ok (rv, Some recs') /\ rel o recs' (s_now y :: (if unl then [] else ts)) (s_now y).
Proof.
  intros o y recs ts last unl old is_open f OD OI (W1 & W2 & W3 & W4 & W5 & W6 & W7) LN NB NP R OF U.
  unfold write_tally.
  assert (OP : exists old', (if is_open then (FdOk, f) else open_tally (s_create y) true f) = (FdOk, Some old')).
  { destruct OF as [[-> ->]|(-> & -> & _)]; [eauto|]. rewrite W2. eexists; reflexivity. }
  destruct OP as [old' ->]. clear OF.
  assert (Pos : Forall (fun r => 0 < t_time r) recs) by (apply (Forall_impl _ (fun r (H : 0 < t_time r <= last) => proj1 H)), (r_recs _ _ _ _ R)).
  assert (Bnd : Forall (fun r => 0 < t_time r <= s_now y) recs) by (eapply Forall_impl; [|exact (r_recs _ _ _ _ R)]; cbn; lia).
  destruct (mark_loop_spec o (s_now y) unl recs 0%nat 0 0%nat 0%nat Pos ltac:(lia)) as (od & fl & E & H). rewrite E. clear E.
  set (now := s_now y) in *. set (m := map (marked o now unl) recs).
  (* the order of invalid and valid records after the marking *)
  assert (VN : forall t, In t (times recs) -> t <= now /\ 0 < t).
  { intros t I. apply in_times in I. destruct I as (r & I & _ & <-). rewrite Forall_forall in Bnd. specialize (Bnd r I). lia. }
  assert (IL : forall r, In r recs -> t_valid r = false -> t_time r < now).
  { intros r I V. assert (TN : ts <> []) by (intro X; rewrite (r_empty _ _ _ _ R X) in I; contradiction).
    assert (NZ : newest (times recs) <> 0).
    { rewrite (r_newest _ _ _ _ R). destruct ts as [|t ts']; [contradiction|]. pose proof (r_ts _ _ _ _ R) as B. inversion B; subst. pose proof (newest_ge (t :: ts') t (or_introl eq_refl)). lia. }
    destruct (newest_in (times recs)) as [X|X]; [contradiction|]. pose proof X as X2. apply in_times in X. destruct X as (r' & I' & V' & E').
    pose proof (r_order _ _ _ _ R r r' I I' V V'). destruct (VN _ X2). lia. }
  assert (Inv : forall r, In r m -> t_valid r = false -> t_time r < now).
  { intros r I V. unfold m in I. apply in_map_iff in I. destruct I as (r0 & <- & I). rewrite marked_time.
    destruct (t_valid r0) eqn:V0; [|apply IL; assumption].
    unfold marked in V. rewrite Forall_forall in Bnd. specialize (Bnd r0 I). rewrite u64_id in V by lia.
    destruct unl.
    - destruct U as [_ U]. pose proof (newest_ge (times recs) (t_time r0) (times_in _ _ I V0)). rewrite (r_newest _ _ _ _ R) in *. lia.
    - cbn [orb] in V. destruct (Z.leb_spec (fail_interval o) (now - t_time r0)) as [Q|Q]; [lia|congruence]. }
  assert (Ord : forall r r', In r m -> In r' m -> t_valid r = false -> t_valid r' = true -> t_time r < t_time r').
  { intros r r' I I' V V'. unfold m in I, I'. apply in_map_iff in I, I'. destruct I as (r0 & <- & I), I' as (r0' & <- & I'). rewrite !marked_time.
    rewrite Forall_forall in Bnd. pose proof (Bnd r0 I). pose proof (Bnd r0' I').
    unfold marked in V, V'. rewrite u64_id in V, V' by lia. destruct unl; cbn [orb] in V, V'; [cbn in V'; discriminate|].
    destruct (Z.leb_spec (fail_interval o) (now - t_time r0')) as [Q'|Q']; [cbn in V'; discriminate|].
    destruct (Z.leb_spec (fail_interval o) (now - t_time r0)) as [Q|Q]; [lia|]. apply (r_order _ _ _ _ R); assumption. }
  assert (TM : times m = filter (fun t => negb unl && (now - t <? fail_interval o)) (times recs)) by (apply times_marked; assumption).
  (* recent failures as of now *)
  assert (Now : forall l, Forall (fun t => t <= now) l -> newest (now :: l) = now /\ recent o (now :: l) = now :: filter (fun t => now - t <? fail_interval o) l).
  { intros l F. assert (NE : newest (now :: l) = now) by (unfold newest; cbn [fold_right]; pose proof (newest_lub l now ltac:(lia) F) as X; unfold newest in X; lia).
    split; [exact NE|]. unfold recent. rewrite NE. cbn [filter]. destruct (Z.ltb_spec (now - now) (fail_interval o)); [reflexivity|lia]. }
  assert (Fts : Forall (fun t => t <= now) ts) by (eapply Forall_impl; [|exact (r_ts _ _ _ _ R)]; cbn; lia).
  assert (Ftm : Forall (fun t => t <= now) (times m)).
  { rewrite TM. apply Forall_forall. intros t I. apply filter_In in I. destruct I as [I _]. destruct (VN t I). assumption. }
  assert (Sub : forall l, newest l <= now -> filter (fun t => now - t <? fail_interval o) l = filter (fun t => now - t <? fail_interval o) (recent o l)).
  { intros l NL. unfold recent. rewrite filter_filter_and. apply filter_ext. intro t. destruct (Z.ltb_spec (now - t) (fail_interval o)), (Z.ltb_spec (newest l - t) (fail_interval o)); cbn; lia || reflexivity. }
  assert (Rec : Permutation (recent o (now :: times m)) (recent o (now :: (if unl then [] else ts)))).
  { destruct (Now _ Ftm) as [_ ->]. destruct unl; cbn [negb andb] in TM.
    - assert (Z0 : filter (fun _ : Z => false) (times recs) = []) by apply filter_none. rewrite TM, Z0. destruct (Now [] (Forall_nil _)) as [_ ->]. apply Permutation_refl.
    - destruct (Now ts Fts) as [_ ->]. constructor. rewrite TM, filter_filter_and.
      rewrite (filter_ext _ (fun t => now - t <? fail_interval o)) by (intro t; apply andb_diag).
      assert (N1 : newest ts <= now) by (apply newest_lub; [lia|exact Fts]).
      rewrite (Sub (times recs)) by (rewrite (r_newest _ _ _ _ R); exact N1). rewrite (Sub ts) by exact N1. apply filter_perm. apply (r_recent _ _ _ _ R). }
  set (new := mkTally true (s_kind y) (firstn 52 (s_source y)) now).
  rewrite W5, W7, W4, !andb_false_r.
  set (ts' := now :: (if unl then [] else ts)) in *.
  assert (Fts' : Forall (fun t => t <= now) (if unl then [] else ts)) by (destruct unl; [constructor|exact Fts]).
  assert (Goal1 : forall recs', Permutation recs' (new :: m) \/ (exists r, t_valid r = false /\ Permutation (r :: recs') (new :: m)) -> (length recs' <= MAX_RECORDS)%nat -> rel o recs' ts' now).
  { intros recs' PP LL.
    assert (IN : forall r, In r recs' -> r = new \/ In r m).
    { intros r I. destruct PP as [PP|(r0 & _ & PP)].
      - apply (Permutation_in _ PP) in I. destruct I as [<-|I]; auto.
      - assert (I2 : In r (new :: m)) by (apply (Permutation_in _ PP); right; exact I). destruct I2 as [<-|I2]; auto. }
    assert (PT : Permutation (times recs') (now :: times m)).
    { assert (TP : forall a b, Permutation a b -> Permutation (times a) (times b)) by (intros a b Pab; unfold times; apply Permutation_map, filter_perm, Pab).
      change (now :: times m) with (times (new :: m)). destruct PP as [PP|(r0 & V0 & PP)]; [apply TP, PP|]. apply TP in PP. rewrite (times_cons_invalid r0 _ V0) in PP. exact PP. }
    assert (Fm : Forall (fun r => 0 < t_time r <= now) m).
    { unfold m. apply Forall_forall. intros r I. apply in_map_iff in I. destruct I as (r0 & <- & I). rewrite marked_time. rewrite Forall_forall in Bnd. apply Bnd. exact I. }
    split.
    - apply Forall_forall. intros r I. destruct (IN r I) as [->|I2]; [cbn; lia|]. rewrite Forall_forall in Fm. apply Fm. exact I2.
    - unfold ts'. constructor; [lia|]. destruct unl; [constructor|]. eapply Forall_impl; [|exact (r_ts _ _ _ _ R)]. cbn. lia.
    - intros r r' I I' V V'. destruct (IN r I) as [->|I2]; [discriminate|]. destruct (IN r' I') as [->|I2']; [cbn; apply Inv; assumption|apply Ord; assumption].
    - exact LL.
    - rewrite (newest_perm _ _ PT). rewrite (proj1 (Now _ Ftm)). symmetry. apply (Now _ Fts').
    - eapply Permutation_trans; [|exact Rec]. unfold recent. rewrite (newest_perm _ _ PT). apply filter_perm. exact PT.
    - discriminate. }
  destruct (nth_error m od) as [r0|] eqn:N0.
  - (* there is an oldest record *)
    assert (Min : forall r, In r m -> t_time r0 <= t_time r).
    { destruct H as [[-> [->|[X _]]]|(k & r & -> & N & M & _)]; [discriminate|lia|].
      cbn [Nat.add] in N0. unfold m in N0. rewrite nth_error_map, N in N0. injection N0 as <-. intros r' I. unfold m in I. apply in_map_iff in I. destruct I as (r1 & <- & I). rewrite !marked_time. apply M. exact I. }
    destruct (t_valid r0) eqn:V0; cbn [andb].
    + (* all are valid: the file grows *)
      assert (AV : forall r, In r m -> t_valid r = true).
      { intros r I. destruct (t_valid r) eqn:V; [reflexivity|]. pose proof (Ord r r0 I (nth_error_In _ _ N0) V V0). specialize (Min r I). lia. }
      assert (Len : length m = length (times m)).
      { unfold times. rewrite map_length. clear -AV. induction m as [|a m' IH]; [reflexivity|]. cbn [filter]. rewrite (AV a (or_introl eq_refl)). cbn [length]. f_equal. apply IH. intros r I. apply AV. right. exact I. }
      assert (Lm : (length m < MAX_RECORDS)%nat).
      { rewrite Len, TM. destruct unl; cbn [negb andb].
        - assert (Z0 : filter (fun _ : Z => false) (times recs) = []) by apply filter_none. rewrite Z0. cbn. unfold MAX_RECORDS. lia.
        - rewrite Sub by (rewrite (r_newest _ _ _ _ R); apply newest_lub; [lia|exact Fts]).
          assert (FL : forall A (p : A -> bool) l, (length (filter p l) <= length l)%nat) by (intros A p l; induction l as [|a l IH]; cbn [filter]; [lia|destruct (p a); cbn [length]; lia]).
          eapply Nat.le_lt_trans; [apply FL|]. rewrite <- (rel_enough _ _ _ _ R) in U. unfold enough in U. destruct (Z.ltb_spec 0 (deny o)); [|lia]. cbn [andb] in U. apply Z.leb_gt in U. unfold MAX_RECORDS. lia. }
      cbn [update_tally]. rewrite app_length. cbn [length]. destruct (Nat.ltb_spec MAX_RECORDS (length m + 1)) as [X|X]; [lia|].
      eexists _, _. split; [reflexivity|]. apply Goal1; [left|rewrite app_length; cbn [length]; exact X]. apply Permutation_sym, Permutation_cons_append.
    + destruct (upd_split _ m od new r0 N0) as (l1 & l2 & EM & ->). cbn [update_tally].
      assert (LE : length (l1 ++ new :: l2) = length recs) by (replace (length recs) with (length m) by apply map_length; rewrite EM, !app_length; reflexivity).
      rewrite LE. destruct (Nat.ltb_spec MAX_RECORDS (length recs)) as [X|X]; [pose proof (r_len _ _ _ _ R); lia|].
      eexists _, _. split; [reflexivity|]. apply Goal1; [right|rewrite LE; exact X]. exists r0. split; [exact V0|].
      rewrite EM. eapply Permutation_trans; [apply perm_skip, Permutation_sym, Permutation_middle|]. eapply Permutation_trans; [apply perm_swap|]. apply perm_skip. apply Permutation_middle.
  - (* no record *)
    assert (M0 : m = []).
    { destruct H as [[-> [->|[X _]]]|(k & r & -> & N & _)]; [reflexivity|lia|]. cbn [Nat.add] in N0. unfold m in N0. rewrite nth_error_map, N in N0. discriminate. }
    rewrite M0 in *. cbn [andb app length update_tally]. destruct (Nat.ltb_spec MAX_RECORDS 1) as [X|X]; [unfold MAX_RECORDS in X; lia|].
    eexists _, _. split; [reflexivity|]. apply Goal1; [left; apply Permutation_refl|exact X].
Qed.

Definition content (f : tfile) : list tally := match f with Some l => l | None => [] end.

Lemma step_refines : forall o e y f ts last, opts_ok o -> exempt o = false -> 0 < deny o <= 1024 -> 0 < fail_interval o -> works y -> 0 < last -> last <= s_now y < 2 ^ 63 -> rel o (content f) ts last ->
  exists f', step o e y f = Ok (fst (spec_step o e (s_now y) ts), f') /\ rel o (content f') (snd (spec_step o e (s_now y) ts)) (s_now y).
Proof.
  intros o e y f ts last OO EX OD OI W LP [LN NB] R.
  assert (T : time_ok (content f)) by (apply (rel_time_ok _ _ _ _ R); lia).
  pose proof (fun pre => check_decides o y pre f OO W ltac:(lia) T (r_len _ _ _ _ R)) as CD. change (match f with Some l => l | None => [] end) with (content f) in CD. cbv zeta in CD.
  rewrite (rel_locked _ _ _ _ (s_now y) R), (rel_enough _ _ _ _ R), EX in CD. cbn [negb andb] in CD.
  assert (R' : rel o (content f) ts (s_now y)) by (apply (rel_later _ _ _ last); assumption).
  assert (RS : forall b, (b = true <-> f <> None) -> content (reset_tally y b f) = []).
  { intros b B. unfold reset_tally. pose proof W as (W1 & W2 & W3 & W4 & W5 & W6 & W7). rewrite W6. destruct b; [reflexivity|]. destruct f as [l|]; [destruct B as [_ B]; specialize (B ltac:(discriminate)); discriminate|]. rewrite W2. reflexivity. }
  assert (FB : match f with Some _ => true | None => false end = true <-> f <> None) by (destruct f; split; congruence).
  unfold step. destruct e; cbn [spec_step].
  - unfold preauth. rewrite CD. cbn [bind c_rv fst snd]. eexists. split; [reflexivity|exact R'].
  - unfold authfail. rewrite CD. cbn [bind c_rv c_recs c_open c_unlocked]. rewrite EX. cbn [negb andb]. destruct (locked o ts (s_now y)) eqn:LK.
    + change (PAM_AUTH_ERR =? PAM_SUCCESS) with false. cbn [fst snd]. eexists. split; [reflexivity|exact R'].
    + change (PAM_SUCCESS =? PAM_SUCCESS) with true. cbn [fst snd negb]. rewrite andb_true_r.
      destruct (write_rel o y (content f) ts last (enough o ts) (content f) (match f with Some _ => true | None => false end) f OD OI W LN NB ltac:(lia) R) as (recs' & rv & E & R2).
      * destruct f; [left|right]; auto.
      * destruct (enough o ts) eqn:EN; [|reflexivity]. split; [reflexivity|]. unfold locked in LK. rewrite EX, EN in LK. cbn [negb andb] in LK. apply orb_false_iff in LK. destruct LK as [L1 L2]. apply Z.leb_gt in L2.
        assert (0 <= wait o) by (unfold wait, opts_ok in *; destruct (is_admin o); lia). lia.
      * rewrite E. cbn [bind]. eexists. split; [reflexivity|exact R2].
  - unfold authsucc. rewrite CD. cbn [bind c_rv c_open]. destruct (locked o ts (s_now y)).
    + change (PAM_AUTH_ERR =? PAM_SUCCESS) with false. cbn [fst snd]. eexists. split; [reflexivity|exact R'].
    + change (PAM_SUCCESS =? PAM_SUCCESS) with true. cbn [fst snd]. eexists. split; [reflexivity|]. rewrite (RS _ FB). apply rel_nil.
  - unfold acct. rewrite CD. cbn [bind c_rv c_open fst snd]. eexists. split; [reflexivity|]. rewrite (RS _ FB). apply rel_nil.
Qed.

(** C34: over every history of calls, starting without failures, while the clock does not go back and the system calls
    work: every answer is the one the remembered failures call for. *)
Theorem history_as_documented : forall h o last f, opts_ok o -> exempt o = false -> 0 < deny o <= 1024 -> 0 < fail_interval o -> 0 < last -> clock_ok last h -> Forall (fun ey => works (snd ey)) h ->
  f = None \/ f = Some [] -> exists f', run o h f = Ok (fst (spec_run o h []), f').
Proof.
  intros h o last f OO EX OD OI LP CK W F.
  assert (G : forall h last f ts, 0 < last -> clock_ok last h -> Forall (fun ey => works (snd ey)) h -> rel o (content f) ts last -> exists f', run o h f = Ok (fst (spec_run o h ts), f')).
  { clear - OO EX OD OI. induction h as [|[e y] h IH]; intros last f ts LP CK W R; cbn [run spec_run]; [eexists; reflexivity|].
    destruct CK as [C1 C2]. inversion W as [|? ? W1 W2]; subst. cbn [snd] in W1.
    destruct (step_refines o e y f ts last OO EX OD OI W1 LP C1 R) as (f1 & E & R1). rewrite E. cbn [bind].
    destruct (spec_step o e (s_now y) ts) as [r ts1]. cbn [fst snd] in *.
    destruct (IH (s_now y) f1 ts1 ltac:(lia) C2 W2 R1) as (f2 & E2). rewrite E2. cbn [bind]. destruct (spec_run o h ts1) as [rs ts2]. cbn [fst]. eexists; reflexivity. }
  apply (G h last f []); try assumption. destruct F as [->| ->]; apply rel_nil.
Qed.

Lemma recent_le : forall o ts, (length (recent o ts) <= length ts)%nat.
Proof. intros o ts. unfold recent. generalize (newest ts). intro m. induction ts as [|a l IH]; cbn [filter]; [lia|]. destruct (m - a <? fail_interval o); cbn [length]; lia. Qed.
Lemma spec_fails : forall o fails ts, exempt o = false -> (Z.of_nat (length ts + length fails) <= deny o) ->
  spec_run o (map (fun y => (Fail, y)) fails) ts = (repeat PAM_IGNORE (length fails), (rev (map s_now fails) ++ ts)%list).
Proof.
  intros o fails. induction fails as [|y fails IH]; intros ts EX D; [reflexivity|]. cbn [map spec_run spec_step length repeat rev].
  assert (NE : enough o ts = false).
  { unfold enough. destruct (Z.ltb_spec 0 (deny o)); cbn [andb]; [|reflexivity]. apply Z.leb_gt. pose proof (recent_le o ts). cbn [length] in D. lia. }
  unfold locked. rewrite EX, NE. cbn [negb andb]. rewrite IH; [|exact EX|cbn [length] in *; lia]. rewrite <- app_assoc. reflexivity.
Qed.
Lemma spec_run_app : forall o h1 h2 ts, spec_run o (h1 ++ h2) ts = let '(r1, ts1) := spec_run o h1 ts in let '(r2, ts2) := spec_run o h2 ts1 in ((r1 ++ r2)%list, ts2).
Proof.
  intros o h1. induction h1 as [|[e y] h1 IH]; intros h2 ts; cbn [app spec_run]; [destruct (spec_run o h2 ts); reflexivity|].
  destruct (spec_step o e (s_now y) ts) as [r ts1]. rewrite IH. destruct (spec_run o h1 ts1) as [r1 ts2]. destruct (spec_run o h2 ts2). reflexivity.
Qed.
Lemma newest_perm_rev : forall l, newest (rev l) = newest l.
Proof. intro l. apply newest_perm, Permutation_sym, Permutation_rev. Qed.

(** C34: [deny] failures within the interval, and the account is locked for the waiting time after the newest, and no
    longer. *)
Theorem deny_failures_lock : forall o fails y last f, opts_ok o -> exempt o = false -> 0 < deny o <= 1024 -> 0 < fail_interval o -> 0 < last ->
  clock_ok last (map (fun y => (Fail, y)) fails ++ [(Pre, y)]) -> Forall works fails -> works y -> f = None \/ f = Some [] ->
  Z.of_nat (length fails) = deny o -> Forall (fun x => newest (map s_now fails) - s_now x < fail_interval o) fails ->
  exists f', run o (map (fun y => (Fail, y)) fails ++ [(Pre, y)]) f =
    Ok ((repeat PAM_IGNORE (length fails) ++ [if (wait o =? 0) || (s_now y <=? newest (map s_now fails) + wait o) then PAM_AUTH_ERR else PAM_SUCCESS])%list, f').
Proof.
  intros o fails y last f OO EX OD OI LP CK W WY F N IV.
  destruct (history_as_documented (map (fun y => (Fail, y)) fails ++ [(Pre, y)]) o last f OO EX OD OI LP CK) as (f' & E); [| exact F|].
  { apply Forall_app. split; [clear -W; induction W; constructor; assumption|constructor; [exact WY|constructor]]. }
  rewrite spec_run_app, spec_fails in E; [|exact EX|cbn [length]; lia]. cbn [spec_run spec_step fst] in E. exists f'. rewrite E. f_equal. f_equal. f_equal. f_equal.
  unfold locked. rewrite EX. cbn [negb andb]. rewrite app_nil_r, newest_perm_rev.
  assert (EN : enough o (rev (map s_now fails)) = true).
  { unfold enough, recent. rewrite newest_perm_rev. set (m := newest (map s_now fails)) in *. clearbody m.
    assert (A : filter (fun t => m - t <? fail_interval o) (rev (map s_now fails)) = rev (map s_now fails)).
    { assert (Q : Forall (fun t => m - t < fail_interval o) (rev (map s_now fails))).
      { apply Forall_rev. clear -IV. induction IV; cbn [map]; constructor; assumption. }
      clear -Q. induction Q as [|t l H _ IH]; [reflexivity|]. cbn [filter]. rewrite (proj2 (Z.ltb_lt _ _) H), IH. reflexivity. }
    rewrite A, rev_length, map_length, N, Z.leb_refl, andb_true_r. apply Z.ltb_lt. lia. }
  rewrite EN. reflexivity.
Qed.

(** C34: whatever fails, a recorded failure does not make the file longer than the limit. *)
Theorem file_limited : forall o y f r f', authfail o y f = Ok (r, f') -> (length (content f') <= Nat.max MAX_RECORDS (length (content f)))%nat.
Proof.
  intros o y f r f' H. unfold authfail in H. destruct (check_tally o y false f) as [c| |]; cbn [bind] in H; try discriminate.
  destruct (c_rv c =? PAM_SUCCESS); [|injection H as <- <-; lia].
  destruct (write_tally o y (c_recs c) (c_open c) (c_unlocked c) f) as [[rv f1]| |] eqn:E; cbn [bind] in H; try discriminate. injection H as <- <-.
  unfold write_tally in E. destruct (if c_open c then (FdOk, f) else open_tally (s_create y) true f) as [op f2] eqn:EO.
  assert (L2 : (length (content f2) <= length (content f))%nat).
  { destruct (c_open c); [injection EO as <- <-; lia|]. unfold open_tally in EO. destruct (s_create y), f; injection EO as <- <-; cbn; lia. }
  destruct op; try (injection E as <- <-; lia).
  destruct (mark_loop o (s_now y) (c_unlocked c) 0 (c_recs c) 0 0 0) as [[m od] fl].
  set (grow := match nth_error m od with Some r0 => t_valid r0 | None => true end) in *.
  destruct (grow && s_realloc_fails y); [injection E as <- <-; lia|].
  match type of E with match ?x with Some _ => _ | None => _ end = _ => destruct x as [recs|]; [|discriminate] end.
  destruct (negb (deny o =? 0) && (Z.of_nat (S fl) =? deny o) && s_audit_fails y); [injection E as <- <-; lia|].
  destruct f2 as [old|]; [|discriminate]. unfold update_tally in E.
  set (data := if (MAX_RECORDS <? length recs)%nat then skipn (length recs - MAX_RECORDS) recs else recs) in *.
  assert (LD : (length data <= MAX_RECORDS)%nat) by (subst data; destruct (Nat.ltb_spec MAX_RECORDS (length recs)); [rewrite skipn_length; lia|lia]).
  clearbody data. cbn [content] in L2.
  destruct (s_write y) as [| |k|].
  - injection E as <- <-. cbn [content]. lia.
  - injection E as <- <-. cbn [content]. lia.
  - destruct (Nat.ltb_spec k (length data)); injection E as <- <-; cbn [content]; [rewrite app_length, firstn_length, skipn_length; lia|lia].
  - injection E as <- <-. cbn [content]. rewrite app_length, skipn_length. lia.
Qed.

(** C34: an administrator is never denied unless even_deny_root is set; nobody is when deny is 0. *)
Theorem never_denied : forall o y pre f c, exempt o = true \/ deny o = 0 -> check_tally o y pre f = Ok c -> c_rv c <> PAM_AUTH_ERR.
Proof.
  intros o y pre f c X H. unfold check_tally in H. destruct (open_tally (s_open y) false f) as [[| | |] f1]; try (injection H as <-; discriminate).
  destruct (read_tally (s_read y) (match f1 with Some l => l | None => [] end)) as [[recs|]| |]; cbn [bind] in H; try discriminate; [|injection H as <-; discriminate].
  destruct (is_admin o && negb (deny_root o)) eqn:E; [injection H as <-; discriminate|]. destruct X as [X|X]; [unfold exempt in X; congruence|].
  rewrite X in H. cbn [Z.eqb negb andb] in H. injection H as <-. discriminate.
Qed.

(** C34: a failing read of the tally is reported, whatever was read before, and the file stays. *)
Lemma read_loop_fails : forall k n fails rest acc fuel, fails (n + k)%nat = true -> (length acc + 64 * k < MAX_RECORDS)%nat -> (64 * k <= length rest)%nat -> (k < fuel)%nat ->
  (forall i, (i < k)%nat -> fails (n + i)%nat = false) -> read_loop fuel fails n rest acc = Ok None.
Proof.
  induction k as [|k IH]; intros n fails rest acc fuel F A R Fu Ok0; (destruct fuel as [|fuel]; [lia|]); cbn [read_loop].
  - rewrite Nat.add_0_r in F. rewrite F. reflexivity.
  - pose proof (Ok0 0%nat ltac:(lia)) as O0. rewrite Nat.add_0_r in O0. rewrite O0.
    assert (LC : length (firstn CHUNK rest) = CHUNK) by (rewrite firstn_length; unfold CHUNK; lia).
    assert (NM : (MAX_RECORDS <=? length (acc ++ firstn CHUNK rest))%nat = false) by (apply Nat.leb_gt; rewrite app_length, LC; unfold CHUNK in *; lia).
    rewrite NM, LC, Nat.eqb_refl. apply IH.
    + replace (S n + k)%nat with (n + S k)%nat by lia. exact F.
    + rewrite app_length, LC. unfold CHUNK. lia.
    + rewrite skipn_length. unfold CHUNK. lia.
    + lia.
    + intros i Hi. replace (S n + i)%nat with (n + S i)%nat by lia. apply Ok0. lia.
Qed.
Theorem read_failure_reported : forall o y l k, s_open y = OpOk -> (k < 16)%nat -> (64 * k <= length l)%nat ->
  (forall i, (i < k)%nat -> s_read y i = false) -> s_read y k = true ->
  preauth o y (Some l) = Ok (PAM_SYSTEM_ERR, Some l) /\ authsucc o y (Some l) = Ok (PAM_SYSTEM_ERR, Some l) /\ authfail o y (Some l) = Ok (PAM_SYSTEM_ERR, Some l).
Proof.
  intros o y l k O K L B F. assert (R : read_tally (s_read y) l = Ok None).
  { unfold read_tally. apply (read_loop_fails k); auto; cbn [length]; unfold MAX_RECORDS; lia. }
  unfold preauth, authsucc, authfail, check_tally. rewrite O. cbn [open_tally]. rewrite R. cbn [bind c_rv]. repeat split; reflexivity.
Qed.

(** * Where C34 fails *)
Definition y_at (now : Z) : sys := mkSys now OpOk OpOk (fun _ => false) WrOk false false false STty (lit "tty1").
Definition y_audit (now : Z) : sys := mkSys now OpOk OpOk (fun _ => false) WrOk false false true STty (lit "tty1").
Definition three : opts := mkOpts 3 900 600 600 false false.

Example history_example :
  opts_ok three /\ exempt three = false /\ works (y_at 5) /\
  let h := [(Pre, y_at 1000); (Fail, y_at 1001); (Fail, y_at 1002); (Pre, y_at 1003); (Fail, y_at 1100); (Pre, y_at 1101); (Fail, y_at 1102); (Succ, y_at 1103);
            (Pre, y_at 1700); (Pre, y_at 1701); (Fail, y_at 1701); (Fail, y_at 1702); (Succ, y_at 1703); (Fail, y_at 1704); (Fail, y_at 1705); (Pre, y_at 1706); (Fail, y_at 2604); (Pre, y_at 2604)] in
  clock_ok 1 h /\
  fst (spec_run three h []) = [PAM_SUCCESS; PAM_IGNORE; PAM_IGNORE; PAM_SUCCESS; PAM_IGNORE; PAM_AUTH_ERR; PAM_AUTH_ERR; PAM_AUTH_ERR;
     PAM_AUTH_ERR; PAM_SUCCESS; PAM_IGNORE; PAM_IGNORE; PAM_SUCCESS; PAM_IGNORE; PAM_IGNORE; PAM_SUCCESS; PAM_IGNORE; PAM_SUCCESS] /\
  exists f, run three h None = Ok (fst (spec_run three h []), Some f) /\ length f = 2%nat.
Proof.
  split; [unfold opts_ok; cbn; lia|]. split; [reflexivity|]. split; [repeat split|]. cbv zeta. split; [cbn; lia|]. split; [vm_compute; reflexivity|].
  eexists. split; [vm_compute; reflexivity|reflexivity].
Qed.

Example read_failure_example :
  let y := mkSys 5 OpOk OpOk (fun n => Nat.eqb n 1) WrOk false false false STty (lit "tty1") in
  let l := repeat (mkTally true STty (lit "tty1") 1) 70 in
  preauth three y (Some l) = Ok (PAM_SYSTEM_ERR, Some l) /\ (64 * 1 <= length l)%nat /\ s_read y 0 = false.
Proof. vm_compute. repeat split; lia. Qed.

(** When the clock is set back, earlier failures are forgotten: three failures within the interval do not lock. *)
Theorem deny_failures_lock_refuted : exists f,
  run three [(Fail, y_at 1000); (Fail, y_at 1001); (Fail, y_at 990); (Pre, y_at 1002)] None = Ok ([PAM_IGNORE; PAM_IGNORE; PAM_IGNORE; PAM_SUCCESS], f).
Proof. eexists. vm_compute. reflexivity. Qed.

(** When the audit system cannot be opened, the failure that would lock the account is not recorded: it is never
    locked, however many failures there are. *)
Theorem audit_failure_prevents_lock_refuted : forall n, exists rs f, run three (repeat (Fail, y_audit 1000) n ++ [(Pre, y_audit 1000)]) None = Ok ((rs ++ [PAM_SUCCESS])%list, f) /\ length rs = n.
Proof.
  set (r := mkTally true STty (lit "tty1") 1000). set (l := [r; r]).
  assert (A : authfail three (y_audit 1000) (Some l) = Ok (PAM_IGNORE, Some l)) by (vm_compute; reflexivity).
  assert (P : preauth three (y_audit 1000) (Some l) = Ok (PAM_SUCCESS, Some l)) by (vm_compute; reflexivity).
  assert (B1 : authfail three (y_audit 1000) None = Ok (PAM_IGNORE, Some [r])) by (vm_compute; reflexivity).
  assert (B2 : authfail three (y_audit 1000) (Some [r]) = Ok (PAM_IGNORE, Some l)) by (vm_compute; reflexivity).
  assert (G : forall n, run three (repeat (Fail, y_audit 1000) n ++ [(Pre, y_audit 1000)]) (Some l) = Ok ((repeat PAM_IGNORE n ++ [PAM_SUCCESS])%list, Some l)).
  { induction n as [|n IH]; cbn [repeat app run step]; [rewrite P; reflexivity|]. rewrite A. cbn [bind]. rewrite IH. reflexivity. }
  intros [|[|n]].
  - eexists [], _. split; [vm_compute; reflexivity|reflexivity].
  - eexists [_], _. split; [vm_compute; reflexivity|reflexivity].
  - clearbody l. cbn [repeat app run step]. rewrite B1. cbn [bind run step]. rewrite B2. cbn [bind]. rewrite G. cbn [bind].
    exists (PAM_IGNORE :: PAM_IGNORE :: repeat PAM_IGNORE n), (Some l). split; [reflexivity|]. cbn [length]. rewrite repeat_length. reflexivity.
Qed.

(** With deny above 1024 the account is never locked: the file does not hold that many failures. *)
Theorem large_deny_never_locks_refuted : forall o y l, opts_ok o -> works y -> 0 <= s_now y < 2 ^ 63 -> time_ok l -> (length l <= MAX_RECORDS)%nat -> 1024 < deny o -> preauth o y (Some l) = Ok (PAM_SUCCESS, Some l).
Proof.
  intros o y l OO W NB T L D. rewrite (preauth_decides o y l OO W NB T L). unfold locked, enough.
  assert (B : (length (recent o (times l)) <= 1024)%nat).
  { eapply Nat.le_trans; [apply recent_le|]. unfold times. rewrite map_length. eapply Nat.le_trans; [|exact L]. clear. induction l as [|a l IH]; cbn [filter length]; [lia|]. destruct (t_valid a); cbn [length]; lia. }
  destruct (Z.leb_spec (deny o) (Z.of_nat (length (recent o (times l))))) as [Q|Q]; [lia|]. rewrite !andb_false_r. reflexivity.
Qed.

(** Two failures at the same time are recorded as one when the file does not exist yet: both calls find no file, so
    that no lock is held between checking and writing, and the second overwrites the record of the first. *)
Theorem concurrent_failures_counted_refuted : exists c1 c2 f1 f2 g1 g2,
  check_tally three (y_at 1000) false None = Ok c1 /\ check_tally three (y_at 1001) false None = Ok c2 /\
  write_tally three (y_at 1000) (c_recs c1) (c_open c1) (c_unlocked c1) None = Ok (PAM_SUCCESS, f1) /\
  write_tally three (y_at 1001) (c_recs c2) (c_open c2) (c_unlocked c2) f1 = Ok (PAM_SUCCESS, f2) /\ times (content f2) = [1001] /\
  authfail three (y_at 1000) None = Ok (PAM_IGNORE, g1) /\ authfail three (y_at 1001) g1 = Ok (PAM_IGNORE, g2) /\ times (content g2) = [1000; 1001].
Proof.
  set (r1 := mkTally true STty (lit "tty1") 1000). set (r2 := mkTally true STty (lit "tty1") 1001). set (c := mkChecked PAM_SUCCESS [] false false).
  exists c, c, (Some [r1]), (Some [r2]), (Some [r1]), (Some [r1; r2]). repeat (split; [vm_compute; reflexivity|]). vm_compute. reflexivity.
Qed.

Print Assumptions preauth_decides.
Print Assumptions history_as_documented.
Print Assumptions deny_failures_lock.
Print Assumptions file_limited.
Print Assumptions never_denied.
Print Assumptions read_failure_reported.
Print Assumptions deny_failures_lock_refuted.
Print Assumptions audit_failure_prevents_lock_refuted.
Print Assumptions large_deny_never_locks_refuted.
Print Assumptions concurrent_failures_counted_refuted.
