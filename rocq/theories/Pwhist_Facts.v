(** Facts about the history file of pam_pwhistory, and its spec. *)
From Coq Require Import String Ascii List Arith ZArith Bool Lia.
From Verif Require Import Base Num_Model Str_Model Str_Facts Opt_Model Opt_Facts Pwhist_Model.
Import ListNotations.
Local Open Scope Z_scope.

(** ** The spec of the file *)

(** The rows of a text: what stands between newlines; the last row may lack its newline. *)
Inductive rows : list ascii -> list cstr -> Prop :=
| rows_nil : rows [] []
| rows_last : forall t, t <> [] -> ~ In c_nl t -> rows t [t]
| rows_cons : forall l t ls, ~ In c_nl l -> rows t ls -> rows (l ++ c_nl :: t)%list (l :: ls).

(** Words with [c] between them. *)
Fixpoint join (c : ascii) (ws : list cstr) : cstr :=
  match ws with [] => [] | [w] => w | w :: ws => (w ++ c :: join c ws)%list end.
(** The hashes that a text with commas lists. *)
Definition lists (old : cstr) (hs : list cstr) : Prop :=
  (old = [] /\ hs = []) \/ (old <> [] /\ hs <> [] /\ old = join ","%char hs /\ forall h, In h hs -> ~ In ","%char h).
(** A number, or nothing. *)
Definition count_ok (s : cstr) : Prop := s = [] \/ exists neg n, signed 10 s neg n [].
(** The row [l] is an entry of [user] with the hashes [hs]: user:uid:count:hashes, what follows a further colon does not matter. *)
Definition entry_of (user l uid : cstr) (hs : list cstr) : Prop :=
  exists cnt rest, l = (user ++ ":"%char :: uid ++ ":"%char :: cnt ++ rest)%list /\ ~ In ":"%char uid /\ ~ In ":"%char cnt /\ count_ok cnt /\
    (rest = [] /\ hs = [] \/
     exists old more, rest = (":"%char :: old ++ more)%list /\ ~ In ":"%char old /\ (more = [] \/ exists m, more = ":"%char :: m) /\ lists old hs).
(** The text records [hs] for [user]: the first entry of that user counts. *)
Definition recorded (user : cstr) (text : list ascii) (hs : list cstr) : Prop :=
  exists a l b uid, rows text (a ++ l :: b)%list /\ entry_of user l uid hs /\ forall l' uid' hs', In l' a -> ~ entry_of user l' uid' hs'.
Definition unrecorded (user : cstr) (text : list ascii) : Prop :=
  exists ls, rows text ls /\ forall l uid hs, In l ls -> ~ entry_of user l uid hs.

(** ** Fields *)

Lemma fld_cons : forall c m t, ~ In c m -> fields c (m ++ c :: t)%list = m :: fields c t.
Proof.
  intros c m t. induction m as [|x m IH]; intro N; cbn [app fields]; [rewrite Ascii.eqb_refl; reflexivity|].
  destruct (Ascii.eqb_spec x c) as [->|NE]; [exfalso; apply N; left; reflexivity|]. rewrite IH by (intro I; apply N; right; exact I). reflexivity.
Qed.
Lemma fld_one : forall c s, ~ In c s -> fields c s = [s].
Proof.
  intros c s. induction s as [|x s IH]; intro N; cbn [fields]; [reflexivity|]. destruct (Ascii.eqb_spec x c) as [->|NE]; [exfalso; apply N; left; reflexivity|].
  rewrite IH by (intro I; apply N; right; exact I). reflexivity.
Qed.
Lemma join_cons : forall c w ws, ws <> [] -> join c (w :: ws) = (w ++ c :: join c ws)%list.
Proof. intros c w [|v ws] N; [congruence|reflexivity]. Qed.
Lemma fld_join : forall c ws, ws <> [] -> (forall w, In w ws -> ~ In c w) -> fields c (join c ws) = ws.
Proof.
  intros c ws. induction ws as [|w ws IH]; intros N A; [congruence|]. destruct ws as [|v ws].
  - cbn [join]. apply fld_one. apply A. left. reflexivity.
  - rewrite join_cons by discriminate. rewrite fld_cons by (apply A; left; reflexivity). rewrite IH; [reflexivity|discriminate|]. intros x I. apply A. right. exact I.
Qed.
Lemma join_fld : forall c s, join c (fields c s) = s /\ forall w, In w (fields c s) -> ~ In c w.
Proof.
  intros c s. induction s as [|x s (IH & IA)]; [split; [reflexivity|intros w [<-|[]] []]|]. cbn [fields]. pose proof (fields_ne c s) as NE.
  destruct (Ascii.eqb_spec x c) as [->|N].
  - split; [rewrite join_cons by exact NE; cbn [app]; congruence|]. intros w [<-|I]; [intros []|apply IA; exact I].
  - destruct (fields c s) as [|w ws]; [congruence|]. split.
    + destruct ws as [|v ws]; [cbn [join] in *; congruence|]. rewrite join_cons in * by discriminate. cbn [app]. congruence.
    + intros y [<-|I]; [|apply IA; right; exact I]. intros [X|X]; [congruence|]. apply (IA w); [left; reflexivity|exact X].
Qed.
Lemma lists_fields : forall old hs, lists old hs <-> hs = match old with [] => [] | c :: s => fields ","%char (c :: s) end.
Proof.
  intros old hs. unfold lists. destruct old as [|c s].
  - split; [intros [(_ & H)|(X & _)]; congruence|intro; left; auto].
  - split.
    + intros [(X & _)|(_ & N & E & A)]; [discriminate|]. rewrite E. symmetry. apply fld_join; assumption.
    + intros ->. right. destruct (join_fld ","%char (c :: s)) as (J & A). split; [discriminate|]. split; [apply fields_ne|]. split; [congruence|exact A].
Qed.

(** ** One row *)

Definition olds (e : opwd) : list cstr := match o_old e with Some (c :: s) => fields ","%char (c :: s) | _ => [] end.

Lemma own_iff : forall user l, own_line user l = true <-> exists x, l = (user ++ ":"%char :: x)%list.
Proof.
  intros user l. unfold own_line. destruct (skip_prefix (user ++ [":"%char]) l) as [r|] eqn:E.
  - apply skip_prefix_some in E. split; [|reflexivity]. intros _. exists r. rewrite E, <- app_assoc. reflexivity.
  - apply skip_prefix_none in E. split; [discriminate|]. intros (x & X). exfalso. apply E. exists x. rewrite X, <- app_assoc. reflexivity.
Qed.

Lemma count_ok_iff : forall s, count_ok s <-> (match strtol s with (_, Some rest) => rest | (_, None) => s end) = [].
Proof.
  intro s. destruct (strtol s) as (v, [r|]) eqn:E.
  - apply strtol_some in E. destruct E as (neg & n & S & V). split.
    + intros [->|(neg' & n' & S')]; [|apply (signed_unique 10 s neg n r neg' n' []) in S'; [tauto|lia|exact S]].
      destruct S as (sp & sg & ds & X & _ & _ & (D & _) & _). symmetry in X. apply app_eq_nil in X. destruct X as (_ & X). apply app_eq_nil in X. destruct X as (_ & X). apply app_eq_nil in X. tauto.
    + intros ->. right. exists neg, n. exact S.
  - apply strtol_none in E. destruct E as (_ & E). split; [intros [->|(neg & n & S)]; [reflexivity|destruct (E _ _ _ S)]|intros ->; left; reflexivity].
Qed.

Lemma parse_entry_iff : forall user l uid hs, ~ In ":"%char user ->
  (entry_of user l uid hs <-> own_line user l = true /\ exists e, parse_entry l = Some e /\ o_user e = user /\ o_uid e = uid /\ olds e = hs).
Proof.
  intros user l uid hs NU. split.
  - intros (cnt & rest & -> & N1 & N2 & C & R). split; [apply own_iff; eexists; reflexivity|]. unfold parse_entry. rewrite fld_cons by exact NU. rewrite fld_cons by exact N1.
    apply count_ok_iff in C. destruct R as [(-> & ->)|(old & more & -> & NO & M & L)].
    + rewrite app_nil_r, fld_one by exact N2. rewrite C. eexists. repeat split.
    + rewrite fld_cons by exact N2. rewrite C. apply lists_fields in L. subst hs. destruct M as [->|(m & ->)].
      * rewrite app_nil_r, fld_one by exact NO. eexists. repeat split.
      * rewrite fld_cons by exact NO. eexists. repeat split.
  - intros (O & e & P & U & I & H). apply own_iff in O. destruct O as (x & ->). unfold parse_entry in P. rewrite fld_cons in P by exact NU.
    destruct (join_fld ":"%char x) as (J & A). destruct (fields ":"%char x) as [|i [|cnt r]] eqn:F; [discriminate|discriminate|].
    destruct (match strtol cnt with (_, Some rest) => rest | (_, None) => cnt end) eqn:C; [|discriminate]. apply count_ok_iff in C. injection P as <-. cbn [o_user o_uid o_old olds] in *. subst i.
    unfold olds in H. cbn [o_old] in H. rewrite <- J. rewrite join_cons by discriminate. destruct r as [|old r].
    + exists cnt, []. cbn [join]. rewrite app_nil_r. split; [reflexivity|]. split; [apply A; left; reflexivity|]. split; [apply A; right; left; reflexivity|]. split; [exact C|]. left. split; congruence.
    + rewrite join_cons by discriminate. exists cnt, (":"%char :: join ":"%char (old :: r)). split; [reflexivity|]. split; [apply A; left; reflexivity|]. split; [apply A; right; left; reflexivity|]. split; [exact C|].
      right. exists old, (match r with [] => [] | _ => ":"%char :: join ":"%char r end). split; [|split; [apply A; right; right; left; reflexivity|split]].
      * destruct r as [|y r]; [cbn [join]; rewrite app_nil_r; reflexivity|rewrite join_cons by discriminate; reflexivity].
      * destruct r; [left; reflexivity|right; eexists; reflexivity].
      * apply lists_fields. destruct old; congruence.
Qed.
Lemma entry_unique : forall user l uid hs uid' hs', ~ In ":"%char user -> entry_of user l uid hs -> entry_of user l uid' hs' -> uid = uid' /\ hs = hs'.
Proof.
  intros user l uid hs uid' hs' NU A B. apply parse_entry_iff in A; [|exact NU]. apply parse_entry_iff in B; [|exact NU].
  destruct A as (_ & e & E & _ & <- & <-). destruct B as (_ & e' & E' & _ & <- & <-). assert (e = e') by congruence. subst. auto.
Qed.

(** ** Rows and lines *)

Lemma lines_cons : forall l t, ~ In c_nl l -> lines_of (l ++ c_nl :: t)%list = (l ++ [c_nl])%list :: lines_of t.
Proof.
  intros l t N. change (l ++ c_nl :: t)%list with (l ++ [c_nl] ++ t)%list. rewrite app_assoc. apply lines_of_app. exists l. auto.
Qed.
Lemma chomp_row : forall l, ~ In c_nl l -> ~ In NUL l -> chomp [c_nl] (l ++ [c_nl])%list = l /\ chomp [c_nl] l = l.
Proof.
  intros l N Z. unfold chomp. rewrite (cut_id l Z). rewrite cut_id.
  2:{ intro I. apply in_app_or in I. destruct I as [I|[I|[]]]; [auto|discriminate]. }
  assert (F : forallb (fun c => negb (among [c_nl] c)) l = true).
  { apply forallb_forall. intros c I. apply negb_true_iff. apply among_false. intros [X|[]]. subst. contradiction. }
  split.
  - rewrite (span_spec _ l [c_nl]); [reflexivity|exact F|right; exists c_nl, []; split; reflexivity].
  - rewrite <- (app_nil_r l) at 1. rewrite (span_spec _ l []); [reflexivity|exact F|left; reflexivity].
Qed.
Lemma rows_lines : forall t ls, rows t ls -> ~ In NUL t -> map (chomp [c_nl]) (lines_of t) = ls.
Proof.
  intros t ls R. induction R as [|t NE N|l t ls N R IH]; intro Z.
  - reflexivity.
  - rewrite lines_of_tail by exact N. destruct t as [|c t]; [congruence|]. cbn [map]. f_equal. apply chomp_row; assumption.
  - rewrite lines_cons by exact N. cbn [map]. rewrite IH by (intro I; apply Z; apply in_or_app; right; right; exact I). f_equal. apply chomp_row; [exact N|]. intro I. apply Z. apply in_or_app. left. exact I.
Qed.
Lemma rows_unique : forall t ls ls', rows t ls -> rows t ls' -> ~ In NUL t -> ls = ls'.
Proof. intros t ls ls' A B Z. apply rows_lines in A; [|exact Z]. apply rows_lines in B; [|exact Z]. congruence. Qed.
Lemma rows_exist : forall t, exists ls, rows t ls.
Proof.
  intro t. destruct (content_lines t) as (ws & q & -> & W & Q). induction W as [|w ws (b & -> & NB) W (ls & IH)].
  - cbn [concat app]. destruct q as [|c q]; [exists []; constructor|]. exists [c :: q]. constructor; [discriminate|exact Q].
  - exists (b :: ls). cbn [concat]. rewrite <- !app_assoc. cbn [app]. constructor; assumption.
Qed.

(** ** check_old_pass *)

Lemma find_rows : forall user ls, ~ In ":"%char user ->
  match find_entry user ls with
  | Some e => exists a l b, map (chomp [c_nl]) ls = (a ++ l :: b)%list /\ parse_entry l = Some e /\ entry_of user l (o_uid e) (olds e) /\
                forall l' uid' hs', In l' a -> ~ entry_of user l' uid' hs'
  | None => forall l uid hs, In l (map (chomp [c_nl]) ls) -> ~ entry_of user l uid hs
  end.
Proof.
  intros user ls NU. induction ls as [|l0 ls IH]; cbn [find_entry map]; [intros l uid hs []|]. set (l := chomp [c_nl] l0).
  assert (SKIP : (forall uid hs, ~ entry_of user l uid hs) ->
    match find_entry user ls with
    | Some e => exists a l' b, l :: map (chomp [c_nl]) ls = (a ++ l' :: b)%list /\ parse_entry l' = Some e /\ entry_of user l' (o_uid e) (olds e) /\
                  forall l'' uid' hs', In l'' a -> ~ entry_of user l'' uid' hs'
    | None => forall l' uid hs, In l' (l :: map (chomp [c_nl]) ls) -> ~ entry_of user l' uid hs
    end).
  { intro NE. destruct (find_entry user ls) as [e|].
    - destruct IH as (a & l' & b & E & P & EN & A). exists (l :: a), l', b. split; [cbn [app]; congruence|]. split; [exact P|]. split; [exact EN|]. intros l'' uid' hs' [<-|I]; [apply NE|apply A; exact I].
    - intros l' uid hs [<-|I]; [apply NE|apply IH; exact I]. }
  destruct l as [|c l1] eqn:EL.
  - apply SKIP. intros uid hs X. apply parse_entry_iff in X; [|exact NU]. destruct X as (X & _). apply own_iff in X. destruct X as (x & X). destruct user; discriminate.
  - destruct (own_line user (c :: l1)) eqn:OW; [destruct (parse_entry (c :: l1)) as [e|] eqn:P|].
    + pose proof OW as O. apply own_iff in O. destruct O as (x & X). assert (U : o_user e = user).
      { revert P. rewrite X. unfold parse_entry. rewrite fld_cons by exact NU. destruct (fields ":"%char x) as [|i [|cnt r]]; [discriminate|discriminate|].
        destruct (match strtol cnt with (_, Some rest) => rest | (_, None) => cnt end); [|discriminate]. intro P. injection P as <-. reflexivity. }
      exists [], (c :: l1), (map (chomp [c_nl]) ls). split; [reflexivity|]. split; [exact P|]. split; [|intros l' uid' hs' []]. apply parse_entry_iff; [exact NU|]. split; [exact OW|]. exists e. auto.
    + apply SKIP. intros uid hs X. apply parse_entry_iff in X; [|exact NU]. destruct X as (_ & e & X & _). congruence.
    + apply SKIP. intros uid hs X. apply parse_entry_iff in X; [|exact NU]. destruct X as (X & _). congruence.
Qed.
Lemma first_entry : forall user a l b a' l' b' uid hs uid' hs', ~ In ":"%char user -> (a ++ l :: b)%list = (a' ++ l' :: b')%list ->
  entry_of user l uid hs -> entry_of user l' uid' hs' -> (forall x u h, In x a -> ~ entry_of user x u h) -> (forall x u h, In x a' -> ~ entry_of user x u h) -> hs = hs'.
Proof.
  intros user a. induction a as [|x a IH]; intros l b a' l' b' uid hs uid' hs' NU E EN EN' A A'; destruct a' as [|y a']; cbn [app] in E; injection E as E1 E.
  - subst l'. eapply entry_unique in EN'; [|exact NU|exact EN]. tauto.
  - subst l. destruct (A' y uid hs (or_introl eq_refl) EN).
  - subst l'. destruct (A x uid' hs' (or_introl eq_refl) EN').
  - eapply (IH l b a' l' b'); eauto; [intros z u h I; apply A; right; exact I|intros z u h I; apply A'; right; exact I].
Qed.
Lemma find_recorded : forall user t hs, ~ In ":"%char user -> ~ In NUL t ->
  (recorded user t hs <-> exists e, find_entry user (lines_of t) = Some e /\ olds e = hs).
Proof.
  intros user t hs NU Z. pose proof (find_rows user (lines_of t) NU) as F. destruct (rows_exist t) as (ls & R). pose proof (rows_lines t ls R Z) as M. rewrite M in F. split.
  - intros (a & l & b & uid & R' & EN & A). pose proof (rows_unique t _ _ R R' Z) as ->. destruct (find_entry user (lines_of t)) as [e|].
    + exists e. split; [reflexivity|]. destruct F as (a' & l' & b' & E & P & EN' & A'). symmetry. eapply first_entry; [exact NU|exact E|exact EN|exact EN'|exact A|exact A'].
    + exfalso. apply (F l uid hs); [apply in_or_app; right; left; reflexivity|exact EN].
  - intros (e & FE & <-). rewrite FE in F. destruct F as (a & l & b & -> & P & EN & A). exists a, l, b, (o_uid e). auto.
Qed.
Lemma find_unrecorded : forall user t, ~ In ":"%char user -> ~ In NUL t -> (unrecorded user t <-> find_entry user (lines_of t) = None).
Proof.
  intros user t NU Z. pose proof (find_rows user (lines_of t) NU) as F. destruct (rows_exist t) as (ls & R). pose proof (rows_lines t ls R Z) as M. rewrite M in F. split.
  - intros (ls' & R' & A). pose proof (rows_unique t _ _ R R' Z) as ->. destruct (find_entry user (lines_of t)) as [e|]; [|reflexivity]. destruct F as (a & l & b & -> & P & EN & _).
    exfalso. apply (A l (o_uid e) (olds e)); [apply in_or_app; right; left; reflexivity|exact EN].
  - intros FE. rewrite FE in F. exists ls. auto.
Qed.
