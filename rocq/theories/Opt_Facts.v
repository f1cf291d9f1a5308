(** Facts about the helpers of Opt_Model and about the lines of a text. *)
From Coq Require Import String Ascii List Arith ZArith Bool Lia.
From Verif Require Import Base Num_Model Str_Model Str_Facts Opt_Model.
Import ListNotations.

Lemma skip_prefix_some : forall p s r, skip_prefix p s = Some r <-> s = p ++ r.
Proof.
  induction p as [|x p IH]; intros s r; cbn [skip_prefix app].
  - split; congruence.
  - destruct s as [|y s]; [split; discriminate|]. destruct (Ascii.eqb x y) eqn:E.
    + apply Ascii.eqb_eq in E. subst y. rewrite IH. split; congruence.
    + apply Ascii.eqb_neq in E. split; congruence.
Qed.

Lemma skip_prefix_app : forall p r, skip_prefix p (p ++ r) = Some r.
Proof. intros. apply skip_prefix_some. reflexivity. Qed.

Lemma skip_prefix_none : forall p s, skip_prefix p s = None <-> ~ exists r, s = p ++ r.
Proof.
  intros p s. destruct (skip_prefix p s) as [r|] eqn:E; split; intro H; try discriminate; try reflexivity.
  - exfalso. apply H. exists r. apply skip_prefix_some. exact E.
  - intros (r & X). apply skip_prefix_some in X. congruence.
Qed.

(** [e] is what stands at the start of a line of [text], up to the first character of [d], newline, NUL or the end:
    the spec of what the modules take from a line. *)
Definition entry (d : cstr) (text e : list ascii) : Prop :=
  exists before rest, text = before ++ e ++ rest /\ e ++ rest <> [] /\ (before = [] \/ last before NUL = c_nl) /\
    (forall c, In c e -> ~ In c d /\ c <> c_nl /\ c <> NUL) /\
    (rest = [] \/ exists c r, rest = c :: r /\ (In c d \/ c = c_nl \/ c = NUL)).

(** [s] is the rest of [t] from the start of a line that is not the first. *)
Definition starts1 (t s : list ascii) : Prop := exists b, t = b ++ s /\ b <> [] /\ last b NUL = c_nl.

Lemma tail_lines : forall (P : list ascii -> Prop) t,
  (exists l, In l (tl (lines_of t)) /\ P l) <-> (exists s, starts1 t s /\ s <> [] /\ P (hd [] (lines_of s))).
Proof.
  intros P. induction t as [|c t IH].
  - cbn. split; [intros (l & [] & _)|]. intros (s & (b & E & N & _) & _). destruct b; [congruence|discriminate].
  - cbn [lines_of]. destruct (Ascii.eqb c c_nl) eqn:C.
    + apply Ascii.eqb_eq in C. subst c. cbn [tl]. split.
      * intros (l & I & p). destruct t as [|d t']; [destruct I|]. destruct (lines_of (d :: t')) as [|h ls] eqn:L; [destruct I|].
        destruct I as [->|I].
        -- exists (d :: t'). split; [exists [c_nl]; repeat split; congruence|]. split; [discriminate|]. rewrite L. exact p.
        -- destruct IH as [IH _]. destruct IH as (s & (b & E & N & B) & S0 & p').
           { exists l. split; [exact I|exact p]. }
           exists s. split; [|split; assumption]. exists (c_nl :: b). rewrite E. split; [reflexivity|]. split; [discriminate|].
           destruct b; [congruence|exact B].
      * intros (s & (b & E & N & B) & S0 & p). destruct b as [|x b]; [congruence|]. cbn [app] in E. injection E as <- E.
        destruct b as [|y b].
        -- cbn [app] in E. subst s. destruct (lines_of t) as [|h ls] eqn:L.
           ++ destruct t; [congruence|]. cbn [lines_of] in L. destruct (Ascii.eqb a c_nl); [discriminate|]. destruct (lines_of t); discriminate.
           ++ exists h. split; [left; reflexivity|exact p].
        -- destruct IH as [_ IH]. destruct IH as (l & I & p').
           { exists s. split; [exists (y :: b); repeat split; [exact E|discriminate|exact B]|]. split; assumption. }
           exists l. split; [|exact p']. destruct (lines_of t); [destruct I|right; exact I].
    + apply Ascii.eqb_neq in C. assert (T : tl (match lines_of t with [] => [[c]] | l :: ls => (c :: l) :: ls end) = tl (lines_of t)) by (destruct (lines_of t); reflexivity).
      rewrite T, IH. split; intros (s & (b & E & N & B) & R).
      * exists s. split; [|exact R]. exists (c :: b). rewrite E. split; [reflexivity|]. split; [discriminate|]. destruct b; [congruence|exact B].
      * destruct b as [|x b]; [congruence|]. cbn [app] in E. injection E as <- E. destruct b as [|y b]; [exfalso; apply C; exact B|].
        exists s. split; [|exact R]. exists (y :: b). split; [exact E|]. split; [discriminate|exact B].
Qed.

Lemma lines_of_nil : forall t, lines_of t = [] -> t = [].
Proof.
  intros [|c t] H; [reflexivity|]. cbn [lines_of] in H. destruct (Ascii.eqb c c_nl); [discriminate|]. destruct (lines_of t); discriminate.
Qed.

(** The lines of a text are what stands at the starts of its lines. *)
Lemma all_lines : forall (P : list ascii -> Prop) t,
  (exists l, In l (lines_of t) /\ P l) <->
  (exists b s, t = b ++ s /\ (b = [] \/ last b NUL = c_nl) /\ s <> [] /\ P (hd [] (lines_of s))).
Proof.
  intros P t. split.
  - intros (l & I & p). destruct (lines_of t) as [|h ls] eqn:L; [destruct I|]. destruct I as [->|I].
    + exists [], t. split; [reflexivity|]. split; [left; reflexivity|]. split; [intro; subst; discriminate|]. rewrite L. exact p.
    + destruct (tail_lines P t) as [T _]. destruct T as (s & (b & E & N & B) & S0 & p').
      { exists l. rewrite L. split; assumption. }
      exists b, s. auto.
  - intros (b & s & E & B & S0 & p). destruct b as [|x b].
    + cbn [app] in E. subst s. destruct (lines_of t) as [|h ls] eqn:L; [apply lines_of_nil in L; congruence|].
      exists h. split; [left; reflexivity|exact p].
    + destruct B as [B|B]; [discriminate|]. destruct (tail_lines P t) as [_ T]. destruct T as (l & I & p').
      { exists s. split; [exists (x :: b); split; [exact E|split; [discriminate|exact B]]|]. split; assumption. }
      exists l. split; [|exact p']. destruct (lines_of t); [destruct I|right; exact I].
Qed.

(** The first line, cut. *)
Lemma chomp_first : forall d s e, s <> [] -> In c_nl d ->
  (chomp d (hd [] (lines_of s)) = e <->
   exists rest, s = e ++ rest /\ (forall c, In c e -> ~ In c d /\ c <> NUL) /\ (rest = [] \/ exists c r, rest = c :: r /\ (In c d \/ c = NUL))).
Proof.
  intros d s. induction s as [|c s IH]; intros e N D; [congruence|]. clear N.
  assert (H1 : hd [] (lines_of (c :: s)) = if Ascii.eqb c c_nl then [c] else c :: hd [] (lines_of s)).
  { cbn [lines_of]. destruct (Ascii.eqb c c_nl); [reflexivity|]. destruct (lines_of s); reflexivity. }
  assert (H2 : forall l, chomp d (c :: l) = if Ascii.eqb c NUL || among d c then [] else c :: chomp d l).
  { intro l. unfold chomp. cbn [cut]. destruct (Ascii.eqb c NUL); [reflexivity|]. cbn [span orb]. destruct (among d c); cbn [negb].
    - reflexivity.
    - destruct (span (fun x => negb (among d x)) (cut l)). reflexivity. }
  assert (H3 : chomp d (hd [] (lines_of (c :: s))) = if Ascii.eqb c NUL || among d c then [] else c :: chomp d (hd [] (lines_of s))).
  { rewrite H1. destruct (Ascii.eqb c c_nl) eqn:X; [|apply H2]. rewrite H2. apply Ascii.eqb_eq in X. subst c.
    assert (A : among d c_nl = true) by (apply among_iff; exact D). rewrite A, orb_true_r. reflexivity. }
  rewrite H3. clear H1 H2 H3. destruct (Ascii.eqb c NUL || among d c) eqn:Q.
  - assert (Q' : In c d \/ c = NUL).
    { apply orb_true_iff in Q. destruct Q as [Q|Q]; [right; apply Ascii.eqb_eq; exact Q|left; apply among_iff; exact Q]. }
    split.
    + intros <-. exists (c :: s). split; [reflexivity|]. split; [intros x []|]. right. exists c, s. auto.
    + intros (rest & E & A & _). destruct e as [|x e]; [reflexivity|]. cbn [app] in E. injection E as <- _.
      destruct (A c (or_introl eq_refl)) as (A1 & A2). tauto.
  - apply orb_false_iff in Q. destruct Q as (Q1 & Q2). apply Ascii.eqb_neq in Q1. apply among_false in Q2.
    destruct s as [|c2 s'].
    + cbn. split.
      * intros <-. exists []. split; [reflexivity|]. split; [intros x [<-|[]]; auto|left; reflexivity].
      * intros (rest & E & A & B). destruct e as [|x e].
        -- cbn [app] in E. subst rest. destruct B as [B|(y & r & B & Y)]; [discriminate|]. injection B as <- _. tauto.
        -- cbn [app] in E. injection E as <- E. destruct e; [reflexivity|discriminate].
    + specialize (IH (tl e)). assert (N' : c2 :: s' <> []) by discriminate. specialize (IH N' D). remember (c2 :: s') as s eqn:Es. split.
      * intros <-. cbn [tl] in IH. destruct IH as [IH _]. destruct (IH eq_refl) as (rest & E & A & B). exists rest. split; [cbn [app]; congruence|].
        split; [|exact B]. intros x [<-|I]; [auto|apply A; exact I].
      * intros (rest & E & A & B). destruct e as [|x e].
        -- cbn [app] in E. subst rest. destruct B as [B|(y & r & B & Y)]; [discriminate|]. injection B as <- _. tauto.
        -- cbn [app] in E. injection E as <- E. f_equal. cbn [tl] in IH. apply IH. exists rest. split; [exact E|]. split; [|exact B].
           intros y I. apply A. right. exact I.
Qed.

(** What cutting the lines of a text gives: its entries. *)
Theorem chomp_entry : forall d text e, In c_nl d ->
  ((exists l, In l (lines_of text) /\ chomp d l = e) <-> entry d text e).
Proof.
  intros d text e D. rewrite (all_lines (fun l => chomp d l = e)). unfold entry. split.
  - intros (b & s & -> & B & N & H). apply chomp_first in H; [|assumption..]. destruct H as (rest & -> & A & R).
    exists b, rest. split; [reflexivity|]. split; [exact N|]. split; [exact B|]. split.
    + intros c I. destruct (A c I) as (A1 & A2). split; [exact A1|]. split; [intros ->; contradiction|exact A2].
    + destruct R as [R|(c & r & R & X)]; [left; exact R|]. right. exists c, r. split; [exact R|]. tauto.
  - intros (b & rest & -> & N & B & A & R). exists b, (e ++ rest). split; [reflexivity|]. split; [exact B|]. split; [exact N|].
    apply chomp_first; [assumption..|]. exists rest. split; [reflexivity|]. split.
    + intros c I. destruct (A c I) as (A1 & A2 & A3). auto.
    + destruct R as [R|(c & r & R & X)]; [left; exact R|]. right. exists c, r. split; [exact R|]. destruct X as [X|[->|X]]; auto.
Qed.

Example chomp_entry_example : entry [c_nl] (lit "tty1" ++ c_nl :: lit "tty2")%list (lit "tty2").
Proof.
  exists (lit "tty1" ++ [c_nl])%list, []. split; [reflexivity|]. split; [discriminate|]. split; [right; reflexivity|].
  split; [|left; reflexivity]. intros c I. cbn in I.
  repeat (destruct I as [<-|I]; [repeat split; try discriminate; intros [X|[]]; discriminate X|]). destruct I.
Qed.

Lemma is_prefix_iff : forall p s, is_prefix p s = true <-> exists r, s = (p ++ r)%list.
Proof.
  induction p as [|x p IH]; intros s; cbn [is_prefix app].
  - split; [exists s; reflexivity|reflexivity].
  - destruct s as [|y s]; [split; [discriminate|intros (r & X); discriminate]|]. destruct (Ascii.eqb_spec x y) as [->|N]; cbn [andb].
    + rewrite IH. split; intros (r & X); exists r; congruence.
    + split; [discriminate|]. intros (r & X). congruence.
Qed.

(** The place found is one, and no earlier one is. *)
Lemma strstr_some : forall t s a p, strstr t s = Some (a, p) ->
  s = (a ++ p)%list /\ (exists r, p = (t ++ r)%list) /\ forall a' r', s = (a' ++ t ++ r')%list -> (length a <= length a')%nat.
Proof.
  intros t. induction s as [|c s IH]; intros a p; cbn [strstr].
  - destruct (is_prefix t []) eqn:P; [|discriminate]. injection 1 as <- <-. apply is_prefix_iff in P. split; [reflexivity|]. split; [exact P|]. intros. cbn. lia.
  - destruct (is_prefix t (c :: s)) eqn:P.
    + injection 1 as <- <-. apply is_prefix_iff in P. split; [reflexivity|]. split; [exact P|]. intros. cbn. lia.
    + destruct (strstr t s) as [[b q]|] eqn:S0; [|discriminate]. injection 1 as <- <-. destruct (IH b q eq_refl) as (-> & R & M). split; [reflexivity|]. split; [exact R|].
      intros [|x a'] r' E.
      * exfalso. assert (X : is_prefix t (c :: b ++ q) = true) by (apply is_prefix_iff; exists r'; exact E). congruence.
      * cbn [app] in E. injection E as _ E. cbn [length]. specialize (M a' r' E). lia.
Qed.

Lemma strstr_none : forall t s a r, strstr t s = None -> s <> (a ++ t ++ r)%list.
Proof.
  intros t. induction s as [|c s IH]; intros a r; cbn [strstr].
  - destruct (is_prefix t []) eqn:P; [discriminate|]. intros _ E. destruct a; [|discriminate]. assert (X : is_prefix t [] = true) by (apply is_prefix_iff; exists r; exact E). congruence.
  - destruct (is_prefix t (c :: s)) eqn:P; [discriminate|]. destruct (strstr t s) as [[b q]|] eqn:S0; [discriminate|]. intros _ E. destruct a as [|x a].
    + assert (X : is_prefix t (c :: s) = true) by (apply is_prefix_iff; exists r; exact E). congruence.
    + cbn [app] in E. injection E as _ E. apply (IH a r eq_refl E).
Qed.

Lemma strchr_some : forall c s r, strchr c s = Some r -> exists m t, s = (m ++ c :: t)%list /\ r = c :: t /\ ~ In c m.
Proof.
  intros c. induction s as [|x s IH]; intros r; cbn [strchr]; [discriminate|]. destruct (Ascii.eqb_spec x c) as [->|N].
  - injection 1 as <-. exists [], s. split; [reflexivity|]. split; [reflexivity|]. intros [].
  - intro H. destruct (IH r H) as (m & t & -> & -> & NI). exists (x :: m), t. split; [reflexivity|]. split; [reflexivity|]. intros [E|I]; [contradiction|exact (NI I)].
Qed.
Lemma strchr_none : forall c s, strchr c s = None -> ~ In c s.
Proof.
  intros c. induction s as [|x s IH]; cbn [strchr]; intro H; [intros []|]. destruct (Ascii.eqb_spec x c) as [->|N]; [discriminate|].
  intros [E|I]; [contradiction|exact (IH H I)].
Qed.

Lemma last_in : forall (l : cstr) d, l <> [] -> In (last l d) l.
Proof.
  induction l as [|x l IH]; intros d N; [congruence|]. destruct l as [|y l]; [left; reflexivity|]. right. apply IH. discriminate.
Qed.
Lemma last_app_ne : forall (a b : cstr) d, b <> [] -> last (a ++ b) d = last b d.
Proof.
  induction a as [|x a IH]; intros b d N; [reflexivity|]. cbn [app]. destruct (a ++ b)%list as [|y l] eqn:E.
  - apply app_eq_nil in E. destruct E; contradiction.
  - change (last (x :: y :: l) d) with (last (y :: l) d). rewrite <- E. apply IH. exact N.
Qed.

Lemma fields_ne : forall c s, fields c s <> [].
Proof. intros c [|x s]; cbn [fields]; [discriminate|]. destruct (Ascii.eqb x c); [discriminate|]. destruct (fields c s); discriminate. Qed.
Lemma fields_hd : forall c s w, hd [] (fields c s) = w <-> ~ In c w /\ exists b, s = w ++ b /\ (b = [] \/ exists b', b = c :: b').
Proof.
  intros c. induction s as [|x s IH]; intro w; cbn [fields].
  - cbn [hd]. split; [intros <-; split; [intros []|exists []; auto]|]. intros (_ & b & E & _). symmetry in E. apply app_eq_nil in E. symmetry. apply E.
  - destruct (Ascii.eqb_spec x c) as [->|D].
    + cbn [hd]. split; [intros <-; split; [intros []|]; exists (c :: s); eauto|]. intros (N & b & E & _). destruct w as [|y w]; [reflexivity|]. injection E as -> _. exfalso. apply N. left. reflexivity.
    + destruct (fields c s) as [|w0 ws] eqn:F; [apply fields_ne in F; destruct F|]. cbn [hd] in IH |- *. split.
      * intros <-. destruct (IH w0) as [(N & b & E & B) _]; [reflexivity|]. split; [intros [Y|Y]; [contradiction|exact (N Y)]|]. exists b. split; [cbn [app]; f_equal; exact E|exact B].
      * intros (N & b & E & B). destruct w as [|y w]; cbn [app] in E; [destruct B as [->|(b' & ->)]; [discriminate|injection E as -> _; contradiction]|].
        injection E as <- E. f_equal. apply IH. split; [intro Y; apply N; right; exact Y|exists b; auto].
Qed.
Lemma fields_tl : forall c s w, In w (tl (fields c s)) <-> exists a b, s = a ++ c :: b /\ hd [] (fields c b) = w.
Proof.
  intros c. induction s as [|x s IH]; intro w; cbn [fields].
  - cbn [tl]. split; [intros []|]. intros (a & b & E & _). destruct a; discriminate.
  - destruct (Ascii.eqb_spec x c) as [->|D].
    + cbn [tl]. assert (X : In w (fields c s) <-> hd [] (fields c s) = w \/ In w (tl (fields c s))).
      { destruct (fields c s) as [|w0 ws] eqn:F; [apply fields_ne in F; destruct F|reflexivity]. }
      rewrite X, IH. split.
      * intros [<-|(a & b & -> & H)]; [exists [], s; auto|exists (c :: a), b; auto].
      * intros ([|y a] & b & E & H); cbn [app] in E; injection E as E; [subst b; left; exact H|right; exists a, b; auto].
    + destruct (fields c s) as [|w0 ws] eqn:F; [apply fields_ne in F; destruct F|]. cbn [tl] in IH |- *. rewrite IH. split.
      * intros (a & b & -> & H). exists (x :: a), b. auto.
      * intros ([|y a] & b & E & H); cbn [app] in E; [injection E as E1 E2; contradiction|injection E as E1 E2]. exists a, b. auto.
Qed.

(** A field is a part without [c] between two [c] or the ends. *)
Lemma fields_iff : forall c s w, In w (fields c s) <->
  ~ In c w /\ exists a b, s = a ++ w ++ b /\ (a = [] \/ exists a', a = a' ++ [c]) /\ (b = [] \/ exists b', b = c :: b').
Proof.
  intros c s w. assert (X : In w (fields c s) <-> hd [] (fields c s) = w \/ In w (tl (fields c s))).
  { destruct (fields c s) as [|w0 ws] eqn:F; [apply fields_ne in F; destruct F|reflexivity]. }
  rewrite X, fields_hd, fields_tl. split.
  - intros [(N & b & E & B)|(a & b & -> & H)].
    + split; [exact N|]. exists [], b. auto.
    + apply fields_hd in H. destruct H as (N & b' & -> & B). split; [exact N|]. exists (a ++ [c]), b'. split; [rewrite <- app_assoc; reflexivity|]. split; [right; eauto|exact B].
  - intros (N & a & b & E & [->|(a' & ->)] & B); [left; split; [exact N|exists b; auto]|].
    right. exists a', (w ++ b). split; [rewrite <- app_assoc in E; exact E|]. apply fields_hd. split; [exact N|exists b; auto].
Qed.

Local Open Scope Z_scope.

(** [ds] are digits of the number [v] in base [b]. *)
Definition based (b : Z) (ds : cstr) (v : Z) : Prop :=
  ds <> [] /\ (forall c, In c ds -> hex_val c < b) /\ v = fold_left (fun a c => a * b + hex_val c) ds 0.

Lemma digits_in_spec : forall b s acc n, exists ds r, s = (ds ++ r)%list /\ (forall c, In c ds -> hex_val c < b) /\ (r = [] \/ exists c r', r = c :: r' /\ ~ hex_val c < b) /\
  digits_in b s acc n = (fold_left (fun a c => a * b + hex_val c) ds acc, (n + length ds)%nat, r).
Proof.
  intros b. induction s as [|c s IH]; intros acc n; cbn [digits_in].
  - exists [], []. cbn. rewrite Nat.add_0_r. repeat split; auto. intros c [].
  - destruct (Z.ltb_spec (hex_val c) b) as [L|L].
    + destruct (IH (acc * b + hex_val c) (S n)) as (ds & r & -> & A & R & E). exists (c :: ds), r. split; [reflexivity|]. split; [intros x [<-|I]; auto|].
      split; [exact R|]. rewrite E. cbn [fold_left length]. f_equal. f_equal. lia.
    + exists [], (c :: s). cbn. rewrite Nat.add_0_r. split; [reflexivity|]. split; [intros x []|]. split; [right; exists c, s; split; [reflexivity|lia]|reflexivity].
Qed.

Lemma digits_in_all : forall b ds acc n, (forall c, In c ds -> hex_val c < b) ->
  digits_in b ds acc n = (fold_left (fun a c => a * b + hex_val c) ds acc, (n + length ds)%nat, []).
Proof.
  intros b. induction ds as [|c ds IH]; intros acc n A; cbn [digits_in fold_left length]; [rewrite Nat.add_0_r; reflexivity|].
  destruct (Z.ltb_spec (hex_val c) b) as [_|L]; [|specialize (A c (or_introl eq_refl)); lia].
  rewrite IH by (intros x I; apply A; right; exact I). f_equal. f_equal. lia.
Qed.

Lemma all_digits_end : forall b s acc n v k, digits_in b s acc n = (v, k, []) ->
  (forall c, In c s -> hex_val c < b) /\ v = fold_left (fun a c => a * b + hex_val c) s acc /\ k = (n + length s)%nat.
Proof.
  intros b s acc n v k H. destruct (digits_in_spec b s acc n) as (ds & r & -> & A & _ & E). rewrite E in H. injection H as <- <- ->.
  rewrite app_nil_r. auto.
Qed.

Lemma skip_spaces_app : forall sp c t, forallb isspace sp = true -> isspace c = false -> skip_spaces (sp ++ c :: t) = c :: t.
Proof.
  induction sp as [|x sp IH]; intros c t A C; cbn [app skip_spaces].
  - rewrite C. reflexivity.
  - cbn [forallb] in A. apply andb_true_iff in A. destruct A as [-> A]. apply IH; assumption.
Qed.
Lemma skip_spaces_split : forall s, exists sp, s = (sp ++ skip_spaces s)%list /\ forallb isspace sp = true.
Proof.
  induction s as [|c s (sp & E & A)]; [exists []; auto|]. cbn [skip_spaces]. destruct (isspace c) eqn:C; [|exists []; auto].
  exists (c :: sp). split; [cbn [app]; congruence|]. cbn [forallb]. rewrite C. exact A.
Qed.

(** ** strtoul *)

Lemma hex_digit : forall c, hex_val c < 10 -> isdigit c = true.
Proof.
  intro c. unfold hex_val. destruct (isdigit c); [reflexivity|]. destruct ((97 <=? Z.of_nat (ord (tolower c))) && (Z.of_nat (ord (tolower c)) <=? 102)) eqn:E; [|lia].
  apply andb_true_iff in E. destruct E as (A & B). apply Z.leb_le in A. lia.
Qed.
Lemma digit_plain : forall c, isdigit c = true -> isspace c = false /\ c <> "+"%char /\ c <> "-"%char.
Proof. intros c D. split; [apply (isdigit_not c D)|]. split; intros ->; discriminate D. Qed.

(** [s] is white space, perhaps a sign ([neg]: a minus), digits of the number [n] in base [b], and then [rest]. *)
Definition signed (b : Z) (s : cstr) (neg : bool) (n : Z) (rest : cstr) : Prop :=
  exists sp sg ds, s = (sp ++ sg ++ ds ++ rest)%list /\ forallb isspace sp = true /\ (neg = true /\ sg = lit "-" \/ neg = false /\ (sg = [] \/ sg = lit "+")) /\
    based b ds n /\ (rest = [] \/ exists c r, rest = c :: r /\ ~ hex_val c < b).
(** The unsigned long for it. *)
Definition ulong (neg : bool) (n : Z) : Z := if neg then Z.min (if n <=? ULONG_MAX then (- n) mod 2 ^ 64 else ULONG_MAX) ULONG_MAX else Z.min n ULONG_MAX.

Lemma based_nonneg : forall b ds n, 0 < b <= 10 -> based b ds n -> 0 <= n.
Proof.
  intros b ds n B (_ & A & ->). assert (G : forall acc, 0 <= acc -> 0 <= fold_left (fun a c => a * b + hex_val c) ds acc).
  { induction ds as [|c ds IH]; intros acc P; cbn [fold_left]; [exact P|]. apply IH; [intros x I; apply A; right; exact I|].
    assert (0 <= hex_val c). { unfold hex_val, digit_val. destruct (isdigit c) eqn:D; [unfold isdigit in D; apply andb_true_iff in D; destruct D as (D & _); apply Nat.leb_le in D; lia|].
      destruct ((97 <=? Z.of_nat (ord (tolower c))) && (Z.of_nat (ord (tolower c)) <=? 102)) eqn:E; [|lia]. apply andb_true_iff in E. destruct E as (E & _). apply Z.leb_le in E. lia. }
    nia. }
  apply G. lia.
Qed.

(** What strtol and its kin find. *)
Lemma conv_signed : forall b s neg n rest, 0 < b <= 10 ->
  ((exists s1 k, sign (skip_spaces s) = (neg, s1) /\ digits_in b s1 0 0 = (n, S k, rest)) <-> signed b s neg n rest).
Proof.
  intros b s neg n rest B. split.
  - intros (s1 & k & SG & H). destruct (skip_spaces_split s) as (sp & E & A). destruct (digits_in_spec b s1 0 0) as (ds & r & E1 & D & R & X). rewrite X in H. injection H as H K <-.
    assert (BS : based b ds n) by (split; [intros ->; discriminate K|auto]). clear H X.
    unfold sign in SG. destruct (skip_spaces s) as [|c q] eqn:SS.
    + injection SG as <- <-. symmetry in E1. apply app_eq_nil in E1. destruct E1 as (-> & _). discriminate K.
    + destruct (Ascii.eqb_spec c "-") as [->|N1]; [injection SG as <- <-; exists sp, (lit "-"), ds; rewrite E, E1; auto 8|].
      destruct (Ascii.eqb_spec c "+") as [->|N2]; [injection SG as <- <-; exists sp, (lit "+"), ds; rewrite E, E1; auto 8|].
      injection SG as <- <-. exists sp, [], ds. rewrite E, E1. auto 8.
  - intros (sp & sg & ds & E & A & SG & BS & R). pose proof BS as (ND & D & V). destruct ds as [|d ds]; [contradiction|].
    assert (DD : isdigit d = true) by (apply hex_digit; specialize (D d (or_introl eq_refl)); lia). destruct (digit_plain d DD) as (P1 & P2 & P3).
    assert (X : sign (skip_spaces s) = (neg, ((d :: ds) ++ rest)%list)).
    { subst s. destruct SG as [(-> & ->)|(-> & [->| ->])].
      - change (lit "-" ++ (d :: ds) ++ rest)%list with ("-"%char :: (d :: ds) ++ rest)%list. rewrite skip_spaces_app by (assumption || reflexivity). reflexivity.
      - cbn [app]. rewrite skip_spaces_app by assumption. unfold sign. destruct (Ascii.eqb_spec d "-"); [contradiction|]. destruct (Ascii.eqb_spec d "+"); [contradiction|]. reflexivity.
      - change (lit "+" ++ (d :: ds) ++ rest)%list with ("+"%char :: (d :: ds) ++ rest)%list. rewrite skip_spaces_app by (assumption || reflexivity). reflexivity. }
    exists ((d :: ds) ++ rest)%list, (length ds). split; [exact X|]. destruct (digits_in_spec b ((d :: ds) ++ rest) 0 0) as (ds' & r' & E' & D' & R' & Y). rewrite Y.
    assert (ds' = d :: ds /\ r' = rest) as (-> & ->).
    { clear - E' D' R' D R. remember (d :: ds) as l eqn:EL. clear EL. revert ds' E' D' D. induction l as [|x l IH]; intros ds' E D' D.
      - destruct ds' as [|y ds']; [auto|]. cbn [app] in E. exfalso. destruct R as [->|(c & r & -> & NC)]; [discriminate|]. injection E as -> _. apply NC. apply D'. left. reflexivity.
      - destruct ds' as [|y ds']; cbn [app] in E.
        + exfalso. destruct R' as [->|(c & r & -> & NC)]; [discriminate|]. injection E as -> _. apply NC. apply D. left. reflexivity.
        + injection E as -> E. destruct (IH ds' E (fun (c : ascii) (I : In c ds') => D' c (or_intror I)) (fun (c : ascii) (I : In c l) => D c (or_intror I))) as (-> & ->). auto. }
    rewrite V. reflexivity.
Qed.
Lemma signed_unique : forall b s neg n r neg' n' r', 0 < b <= 10 -> signed b s neg n r -> signed b s neg' n' r' -> neg = neg' /\ n = n' /\ r = r'.
Proof.
  intros b s neg n r neg' n' r' B H H'. apply conv_signed in H, H'; try exact B. destruct H as (s1 & k & E & D). destruct H' as (s2 & k' & E' & D'). rewrite E in E'. injection E' as <- <-. rewrite D in D'. injection D' as <- _ <-. auto.
Qed.
Lemma signed_nonneg : forall b s neg n r, 0 < b <= 10 -> signed b s neg n r -> 0 <= n.
Proof. intros b s neg n r B (sp & sg & ds & _ & _ & _ & BS & _). apply (based_nonneg b ds); assumption. Qed.

Lemma strtoul_some : forall b s v rest, 0 < b <= 10 ->
  (strtoul b s = (v, Some rest) <-> exists neg n, signed b s neg n rest /\ v = ulong neg n).
Proof.
  intros b s v rest B. assert (W : forall (neg : bool) n, 0 <= n -> (if ULONG_MAX <? n then ULONG_MAX else if neg then (- n) mod (ULONG_MAX + 1) else n) = ulong neg n).
  { intros neg n P. unfold ulong. change (2 ^ 64) with (ULONG_MAX + 1). destruct (Z.ltb_spec ULONG_MAX n) as [L|L].
    - destruct (Z.leb_spec n ULONG_MAX); [lia|]. destruct neg; lia.
    - destruct (Z.leb_spec n ULONG_MAX); [|lia]. destruct neg; [|lia]. pose proof (Z.mod_pos_bound (- n) (ULONG_MAX + 1)). assert (0 < ULONG_MAX) by reflexivity. lia. }
  unfold strtoul. split.
  - destruct (sign (skip_spaces s)) as [neg s1] eqn:SG. destruct (digits_in b s1 0 0) as [[n k] r] eqn:D. destruct k as [|k]; [discriminate|]. cbn [Nat.eqb]. intro H.
    assert (S0 : signed b s neg n r) by (apply conv_signed; [exact B|]; exists s1, k; auto). rewrite W in H by (eapply signed_nonneg; eassumption). injection H as <- <-. exists neg, n. auto.
  - intros (neg & n & S0 & ->). pose proof (signed_nonneg _ _ _ _ _ B S0) as P. apply conv_signed in S0; [|exact B]. destruct S0 as (s1 & k & -> & ->). cbn [Nat.eqb]. rewrite W by exact P. reflexivity.
Qed.

Lemma strtoul_none : forall b s v, 0 < b <= 10 -> strtoul b s = (v, None) -> v = 0 /\ forall neg n rest, ~ signed b s neg n rest.
Proof.
  intros b s v B H. split.
  - unfold strtoul in H. destruct (sign (skip_spaces s)) as [neg s1]. destruct (digits_in b s1 0 0) as [[w n] r]. destruct (Nat.eqb n 0); [|discriminate]. congruence.
  - intros neg n rest X. assert (Y : strtoul b s = (ulong neg n, Some rest)) by (apply strtoul_some; [exact B|]; exists neg, n; auto). congruence.
Qed.

(** strtol. *)
Lemma digits_ten : forall s acc n, digits s acc n = digits_in 10 s acc n.
Proof.
  induction s as [|c s IH]; intros acc n; [reflexivity|]. cbn [digits digits_in]. destruct (isdigit c) eqn:D.
  - assert (H : hex_val c = digit_val c) by (unfold hex_val; rewrite D; reflexivity). assert (L : digit_val c < 10). { unfold isdigit in D. apply andb_true_iff in D. destruct D as (A & B). apply Nat.leb_le in A, B. unfold digit_val. lia. }
    rewrite H. destruct (Z.ltb_spec (digit_val c) 10); [apply IH|lia].
  - destruct (Z.ltb_spec (hex_val c) 10) as [L|L]; [apply hex_digit in L; congruence|reflexivity].
Qed.
(** The long for a number. *)
Definition long_of (neg : bool) (n : Z) : Z := Z.max LONG_MIN (Z.min LONG_MAX (if neg then - n else n)).
Lemma clamp_long : forall v, clamp LONG_MIN LONG_MAX v = Z.max LONG_MIN (Z.min LONG_MAX v).
Proof. intro v. unfold clamp. assert (LONG_MIN < LONG_MAX) by reflexivity. destruct (Z.ltb_spec v LONG_MIN); [lia|]. destruct (Z.ltb_spec LONG_MAX v); lia. Qed.
Lemma strtol_some : forall s v rest, strtol s = (v, Some rest) <-> exists neg n, signed 10 s neg n rest /\ v = long_of neg n.
Proof.
  intros s v rest. assert (B : 0 < 10 <= 10) by lia. unfold strtol. split.
  - destruct (sign (skip_spaces s)) as [neg s1] eqn:SG. rewrite digits_ten. destruct (digits_in 10 s1 0 0) as [[n k] r] eqn:D. destruct k as [|k]; [discriminate|]. cbn [Nat.eqb]. rewrite clamp_long. intro H.
    assert (S0 : signed 10 s neg n r) by (apply conv_signed; [exact B|]; exists s1, k; auto). injection H as <- <-. exists neg, n. auto.
  - intros (neg & n & S0 & ->). apply conv_signed in S0; [|exact B]. destruct S0 as (s1 & k & -> & D). rewrite digits_ten, D. cbn [Nat.eqb]. rewrite clamp_long. reflexivity.
Qed.
Lemma strtol_none : forall s v, strtol s = (v, None) -> v = 0 /\ forall neg n rest, ~ signed 10 s neg n rest.
Proof.
  intros s v H. split.
  - unfold strtol in H. destruct (sign (skip_spaces s)) as [neg s1]. destruct (digits s1 0 0) as [[w n] r]. destruct (Nat.eqb n 0); [|discriminate]. congruence.
  - intros neg n rest X. assert (Y : strtol s = (long_of neg n, Some rest)) by (apply strtol_some; exists neg, n; auto). congruence.
Qed.
