(** Facts about the string functions of Str_Model.v. *)
From Coq Require Import String Ascii List Arith ZArith Bool Lia.
From Verif Require Import Base Num_Model Str_Model.
Import ListNotations.

(** ** Separators *)
(** Every character is a separator; none is. *)
Definition all_sep (d s : cstr) : Prop := forall c, In c s -> In c d.
Definition no_sep (d s : cstr) : Prop := forall c, In c s -> ~ In c d.

(** The words of a text: maximal runs of other characters than separators. *)
Inductive words (d : cstr) : cstr -> list cstr -> Prop :=
| words_none : forall p, all_sep d p -> words d p []
| words_last : forall p w, all_sep d p -> w <> [] -> no_sep d w -> words d (p ++ w) [w]
| words_more : forall p w x s ws, all_sep d p -> w <> [] -> no_sep d w -> In x d -> words d s ws ->
    words d (p ++ w ++ x :: s) (w :: ws).

Lemma among_iff : forall d c, among d c = true <-> In c d.
Proof.
  intros d c. unfold among. rewrite existsb_exists. split.
  - intros (x & I & E). apply Ascii.eqb_eq in E. subst. exact I.
  - intro I. exists c. rewrite Ascii.eqb_refl. auto.
Qed.

Lemma among_false : forall d c, among d c = false <-> ~ In c d.
Proof. intros d c. rewrite <- among_iff. destruct (among d c); split; intros; try congruence; exfalso; auto. Qed.

Lemma span_app : forall p s a b, span p s = (a, b) -> s = a ++ b /\ forallb p a = true /\ (b = [] \/ exists c b', b = c :: b' /\ p c = false).
Proof.
  intros p. induction s as [|c s IH]; cbn [span]; intros a b H.
  - injection H as <- <-. auto.
  - destruct (p c) eqn:E.
    + destruct (span p s) as [a0 b0] eqn:F. injection H as <- <-. destruct (IH _ _ eq_refl) as (-> & Q & R).
      split; [reflexivity|]. split; [cbn [forallb]; rewrite E; exact Q|exact R].
    + injection H as <- <-. split; [reflexivity|]. split; [reflexivity|]. right. eauto.
Qed.

Lemma span_spec : forall p a b, forallb p a = true -> (b = [] \/ exists c b', b = c :: b' /\ p c = false) -> span p (a ++ b) = (a, b).
Proof.
  intros p. induction a as [|c a IH]; intros b A B; cbn [app span].
  - destruct B as [-> |(c & b' & -> & E)]; cbn [span]; [reflexivity|]. rewrite E. reflexivity.
  - cbn [forallb] in A. apply andb_true_iff in A. destruct A as [E A]. rewrite E, (IH b A B). reflexivity.
Qed.

Lemma all_sep_forallb : forall d s, all_sep d s <-> forallb (among d) s = true.
Proof.
  intros d s. rewrite forallb_forall. split; intros H c I; [apply among_iff|apply among_iff]; auto.
Qed.

Lemma no_sep_forallb : forall d s, no_sep d s <-> forallb (fun c => negb (among d c)) s = true.
Proof.
  intros d s. rewrite forallb_forall. split; intros H c I.
  - apply negb_true_iff, among_false. auto.
  - apply among_false, negb_true_iff. auto.
Qed.

Lemma all_sep_app : forall d a b, all_sep d (a ++ b) <-> all_sep d a /\ all_sep d b.
Proof.
  intros d a b. unfold all_sep. split.
  - intro H. split; intros c I; apply H, in_or_app; auto.
  - intros [A B] c I. apply in_app_or in I. destruct I; auto.
Qed.

Lemma strtok_more : forall d p w x s, all_sep d p -> w <> [] -> no_sep d w -> In x d -> strtok d (p ++ w ++ x :: s) = Some (w, s).
Proof.
  intros d p w x s P W N X. unfold strtok.
  rewrite (span_spec (among d) p (w ++ x :: s)).
  - cbn [snd]. destruct w as [|c w]; [congruence|]. cbn [app].
    change (c :: w ++ x :: s) with ((c :: w) ++ x :: s).
    rewrite (span_spec (fun c => negb (among d c)) (c :: w) (x :: s)); [reflexivity|apply no_sep_forallb; exact N|].
    right. exists x, s. split; [reflexivity|]. apply negb_false_iff, among_iff. exact X.
  - apply all_sep_forallb. exact P.
  - right. destruct w as [|c w]; [congruence|]. exists c, (w ++ x :: s). split; [reflexivity|]. apply among_false, N. left. reflexivity.
Qed.

Lemma strtok_last : forall d p w, all_sep d p -> w <> [] -> no_sep d w -> strtok d (p ++ w) = Some (w, []).
Proof.
  intros d p w P W N. unfold strtok.
  rewrite (span_spec (among d) p w).
  - cbn [snd]. destruct w as [|c w]; [congruence|].
    rewrite <- (app_nil_r (c :: w)) at 1.
    rewrite (span_spec (fun c => negb (among d c)) (c :: w) []); [reflexivity|apply no_sep_forallb; exact N|left; reflexivity].
  - apply all_sep_forallb. exact P.
  - right. destruct w as [|c w]; [congruence|]. exists c, w. split; [reflexivity|]. apply among_false, N. left. reflexivity.
Qed.

Lemma strtok_none : forall d s, strtok d s = None <-> all_sep d s.
Proof.
  intros d s. unfold strtok. destruct (span (among d) s) as [a b] eqn:E. apply span_app in E. destruct E as (-> & A & B). cbn [snd].
  destruct b as [|c b].
  - split; [|reflexivity]. intros _. rewrite app_nil_r. apply all_sep_forallb. exact A.
  - destruct (span _ (c :: b)) as [t r]. split; [discriminate|]. intro H. exfalso.
    destruct B as [B|(c' & b' & B & N)]; [discriminate|]. injection B as -> ->. apply among_false in N. apply N, H, in_or_app. right. left. reflexivity.
Qed.

Lemma strtok_some : forall d s w r, strtok d s = Some (w, r) ->
  exists p, all_sep d p /\ w <> [] /\ no_sep d w /\ ((s = p ++ w /\ r = []) \/ exists x, In x d /\ s = p ++ w ++ x :: r).
Proof.
  intros d s w r. unfold strtok. destruct (span (among d) s) as [a b] eqn:E. apply span_app in E. destruct E as (-> & A & B). cbn [snd].
  destruct b as [|c b]; [discriminate|].
  destruct (span (fun c => negb (among d c)) (c :: b)) as [t u] eqn:F. pose proof F as F'. apply span_app in F. destruct F as (F & T & U).
  intro H. injection H as <- <-. exists a. split; [apply all_sep_forallb; exact A|].
  assert (W : t <> []).
  { intros ->. destruct B as [B|(c' & b' & B & N)]; [discriminate|]. injection B as -> ->. cbn [app] in F. subst u.
    destruct U as [U|(c'' & b'' & U & V)]; [discriminate|]. injection U as -> ->. rewrite N in V. discriminate. }
  split; [exact W|]. split; [apply no_sep_forallb; exact T|].
  destruct U as [-> |(x & u' & -> & X)].
  - left. rewrite app_nil_r in F. rewrite F. auto.
  - right. exists x. split; [apply among_iff, negb_false_iff; exact X|]. cbn [List.tl]. rewrite F. reflexivity.
Qed.

Lemma strtok_shorter : forall d s w r, strtok d s = Some (w, r) -> (length r < length s)%nat.
Proof.
  intros d s w r H. apply strtok_some in H. destruct H as (p & _ & W & _ & [(-> & ->)|(x & _ & ->)]); rewrite !app_length; cbn [length].
  - destruct w; [congruence|]. cbn [length]. lia.
  - lia.
Qed.

Lemma strtoks_words_fuel : forall fuel d s, (length s < fuel)%nat -> words d s (strtoks_loop fuel d s).
Proof.
  induction fuel as [|fuel IH]; intros d s L; [lia|]. cbn [strtoks_loop].
  destruct (strtok d s) as [[w r]|] eqn:E.
  - pose proof (strtok_shorter _ _ _ _ E) as Sh. apply strtok_some in E. destruct E as (p & P & W & N & [(-> & ->)|(x & X & ->)]).
    + destruct fuel as [|fuel]; [rewrite app_length in L; destruct w; [congruence|]; cbn [length] in L; lia|].
      cbn [strtoks_loop strtok span snd]. apply words_last; assumption.
    + apply words_more; auto. apply IH. lia.
  - apply words_none. apply strtok_none. exact E.
Qed.

(** The tokens of strtok_r are the words of the text. *)
Lemma strtoks_words : forall d s, words d s (strtoks d s).
Proof. intros d s. apply strtoks_words_fuel. lia. Qed.

Lemma words_strtoks_fuel : forall d s ws, words d s ws -> forall fuel, (length s < fuel)%nat -> strtoks_loop fuel d s = ws.
Proof.
  intros d s ws H. induction H as [p P|p w P W N|p w x s ws P W N X H IH]; intros fuel L; (destruct fuel as [|fuel]; [lia|]); cbn [strtoks_loop].
  - apply strtok_none in P. rewrite P. reflexivity.
  - rewrite strtok_last by assumption. destruct fuel; [rewrite app_length in L; destruct w; [congruence|]; cbn [length] in L; lia|]. reflexivity.
  - rewrite strtok_more by assumption. f_equal. apply IH. rewrite !app_length in L. cbn [length] in L. lia.
Qed.

Lemma words_strtoks : forall d s ws, words d s ws -> strtoks d s = ws.
Proof. intros d s ws H. apply (words_strtoks_fuel _ _ _ H). lia. Qed.

Lemma words_nonempty : forall d s ws, words d s ws -> Forall (fun w => w <> []) ws.
Proof. intros d s ws H. induction H; constructor; auto. Qed.

(** ** Lines *)
(** A line with its newline, which is its only one. *)
Definition whole_line (l : list ascii) : Prop := exists b, l = b ++ [c_nl] /\ ~ In c_nl b.

Lemma lines_of_app : forall l rest, whole_line l -> lines_of (l ++ rest) = l :: lines_of rest.
Proof.
  intros l rest (b & -> & N). rewrite <- app_assoc. cbn [app]. induction b as [|c b IH]; cbn [app lines_of].
  - rewrite Ascii.eqb_refl. reflexivity.
  - destruct (Ascii.eqb c c_nl) eqn:E; [apply Ascii.eqb_eq in E; subst; exfalso; apply N; left; reflexivity|].
    rewrite IH by (intro I; apply N; right; exact I). reflexivity.
Qed.

Lemma lines_of_tail : forall t, ~ In c_nl t -> lines_of t = match t with [] => [] | _ => [t] end.
Proof.
  induction t as [|c t IH]; intro N; [reflexivity|]. cbn [lines_of].
  destruct (Ascii.eqb c c_nl) eqn:E; [apply Ascii.eqb_eq in E; subst; exfalso; apply N; left; reflexivity|].
  rewrite IH by (intro I; apply N; right; exact I). destruct t; reflexivity.
Qed.

Lemma lines_of_whole : forall ls t, Forall whole_line ls -> ~ In c_nl t ->
  lines_of (concat ls ++ t) = ls ++ match t with [] => [] | _ => [t] end.
Proof.
  induction ls as [|l ls IH]; intros t F N; cbn [concat app].
  - apply lines_of_tail. exact N.
  - inversion F; subst. rewrite <- app_assoc, lines_of_app by assumption. rewrite IH by assumption. reflexivity.
Qed.

(** Every file is a sequence of whole lines and perhaps an unfinished one. *)
Lemma content_lines : forall s, exists ls t, s = concat ls ++ t /\ Forall whole_line ls /\ ~ In c_nl t.
Proof.
  induction s as [|c s (ls & t & -> & F & N)].
  - exists [], []. cbn. auto.
  - destruct (Ascii.eqb c c_nl) eqn:E.
    + apply Ascii.eqb_eq in E. subst. exists ([c_nl] :: ls), t. split; [reflexivity|]. split; [|exact N]. constructor; [|exact F]. exists []. cbn. auto.
    + destruct ls as [|l ls].
      * exists [], (c :: t). cbn [concat app]. split; [reflexivity|]. split; [constructor|]. intros [I|I]; [subst; rewrite Ascii.eqb_refl in E; discriminate|auto].
      * inversion F as [|? ? (b & -> & B) F']; subst. exists ((c :: b ++ [c_nl]) :: ls), t. cbn [concat app]. split; [reflexivity|]. split; [|exact N].
        constructor; [|exact F']. exists (c :: b). split; [reflexivity|]. intros [I|I]; [subst; rewrite Ascii.eqb_refl in E; discriminate|auto].
Qed.

Lemma cut_id : forall s, ~ In NUL s -> cut s = s.
Proof.
  induction s as [|c s IH]; intro N; [reflexivity|]. cbn [cut]. destruct (Ascii.eqb c NUL) eqn:E.
  - apply Ascii.eqb_eq in E. subst. exfalso. apply N. left. reflexivity.
  - rewrite IH by (intro I; apply N; right; exact I). reflexivity.
Qed.

Lemma cut_no_nul : forall s, ~ In NUL (cut s).
Proof.
  induction s as [|c s IH]; cbn [cut]; [auto|]. destruct (Ascii.eqb c NUL) eqn:E; [auto|].
  intros [I|I]; [subst; rewrite Ascii.eqb_refl in E; discriminate|auto].
Qed.

Lemma cut_prefix : forall s, exists r, s = cut s ++ r /\ (r = [] \/ exists r', r = NUL :: r').
Proof.
  induction s as [|c s (r & E & R)]; cbn [cut]; [exists []; auto|]. destruct (Ascii.eqb c NUL) eqn:X.
  - apply Ascii.eqb_eq in X. subst. exists (NUL :: s). cbn. eauto.
  - exists r. cbn [app]. rewrite <- E. auto.
Qed.

Lemma rtrim_spec : forall s, exists tr, s = rtrim s ++ tr /\ forallb isspace tr = true /\ (rtrim s = [] \/ isspace (last (rtrim s) NUL) = false).
Proof.
  intro s. unfold rtrim. destruct (span isspace (rev s)) as [a b] eqn:E. apply span_app in E. destruct E as (E & A & B). cbn [snd].
  exists (rev a). split.
  { rewrite <- rev_app_distr, <- E, rev_involutive. reflexivity. }
  split. { rewrite forallb_forall in *. intros c I. apply A. apply in_rev. exact I. }
  destruct B as [-> |(c & b' & -> & N)]; [left; reflexivity|]. right. cbn [rev]. rewrite last_last. exact N.
Qed.

Lemma rtrim_app : forall b tr, forallb isspace tr = true -> (b = [] \/ isspace (last b NUL) = false) -> rtrim (b ++ tr) = b.
Proof.
  intros b tr T B. unfold rtrim. rewrite rev_app_distr.
  rewrite (span_spec isspace (rev tr) (rev b)).
  - cbn [snd]. apply rev_involutive.
  - rewrite forallb_forall in *. intros c I. apply T. apply in_rev. exact I.
  - destruct B as [-> |N]; [left; reflexivity|]. destruct b as [|c b] using rev_ind; [left; reflexivity|].
    right. rewrite last_last in N. rewrite rev_app_distr. cbn [rev app]. eauto.
Qed.

Lemma split_at_some : forall c s a b, split_at c s = Some (a, b) <-> s = a ++ c :: b /\ ~ In c a.
Proof.
  intros c. induction s as [|x s IH]; intros a b; cbn [split_at].
  - split; [discriminate|]. intros [H _]. destruct a; discriminate.
  - destruct (Ascii.eqb x c) eqn:E.
    + apply Ascii.eqb_eq in E. subst. split.
      * intro H. injection H as <- <-. split; [reflexivity|auto].
      * intros [H N]. destruct a as [|y a]; [injection H as ->; reflexivity|]. injection H as -> _. exfalso. apply N. left. reflexivity.
    + destruct (split_at c s) as [[a' b']|] eqn:F.
      * split.
        -- intro H. injection H as <- <-. destruct (proj1 (IH a' b') eq_refl) as [-> N]. split; [reflexivity|].
           intros [I|I]; [subst; rewrite Ascii.eqb_refl in E; discriminate|auto].
        -- intros [H N]. destruct a as [|y a]; [injection H as -> _; rewrite Ascii.eqb_refl in E; discriminate|]. injection H as -> H.
           assert (G : Some (a', b') = Some (a, b)) by (apply IH; split; [exact H|intro I; apply N; right; exact I]).
           injection G as -> ->. reflexivity.
      * split; [discriminate|]. intros [H N]. destruct a as [|y a]; [injection H as -> _; rewrite Ascii.eqb_refl in E; discriminate|]. injection H as -> H.
        assert (G : None = Some (a, b)) by (apply IH; split; [exact H|intro I; apply N; right; exact I]). discriminate.
Qed.

Lemma split_at_none : forall c s, split_at c s = None <-> ~ In c s.
Proof.
  intros c. induction s as [|x s IH]; cbn [split_at In]; [split; auto|].
  destruct (Ascii.eqb x c) eqn:E.
  - apply Ascii.eqb_eq in E. subst. split; [discriminate|]. intro N. exfalso. auto.
  - apply Ascii.eqb_neq in E. destruct (split_at c s) as [[a b]|].
    + split; [discriminate|]. intro N. assert (G : Some (a, b) = None) by (apply IH; auto). discriminate.
    + split; [|reflexivity]. intros _ [I|I]; [auto|]. apply (proj1 IH); auto.
Qed.

Lemma caseeq_iff : forall a b, caseeq a b = true <-> map tolower a = map tolower b.
Proof. intros a b. unfold caseeq. apply streq_eq. Qed.

(** ** Decimal numbers *)
Local Open Scope Z_scope.

(** The value of a sequence of decimal digits. *)
Definition value (s : cstr) : Z := fold_left (fun v c => v * 10 + digit_val c) s 0.

Lemma digit_chr : forall d, 0 <= d < 10 -> isdigit (chr (48 + Z.to_nat d)) = true /\ digit_val (chr (48 + Z.to_nat d)) = d.
Proof.
  intros d H. assert (L : (48 + Z.to_nat d < 256)%nat) by lia. unfold isdigit, digit_val, ord, chr. rewrite !nat_ascii_embedding by exact L. split.
  - apply andb_true_iff. split; apply Nat.leb_le; lia.
  - lia.
Qed.

Lemma dec_loop_acc : forall fuel n acc, dec_loop fuel n acc = dec_loop fuel n [] ++ acc.
Proof.
  induction fuel as [|fuel IH]; intros n acc; cbn [dec_loop]; [reflexivity|].
  destruct (n / 10 =? 0); [reflexivity|]. rewrite IH. rewrite (IH (n / 10) [_]). rewrite <- app_assoc. reflexivity.
Qed.

Lemma dec_loop_value : forall fuel n, 0 <= n < 10 ^ Z.of_nat fuel -> (0 < fuel)%nat ->
  forallb isdigit (dec_loop fuel n []) = true /\ value (dec_loop fuel n []) = n /\ dec_loop fuel n [] <> [].
Proof.
  induction fuel as [|fuel IH]; intros n H P; [lia|]. cbn [dec_loop]. rewrite Nat2Z.inj_succ, Z.pow_succ_r in H by lia.
  pose proof (Z.mod_pos_bound n 10 ltac:(lia)) as M. destruct (digit_chr (n mod 10) M) as [D V]. pose proof (Z.div_mod n 10 ltac:(lia)) as DM.
  destruct (Z.eqb_spec (n / 10) 0) as [E|E].
  - split; [cbn [forallb]; rewrite D; reflexivity|]. split; [|discriminate]. unfold value. cbn [fold_left]. rewrite V. lia.
  - assert (B : 0 <= n / 10 < 10 ^ Z.of_nat fuel).
    { split; [apply Z.div_pos; lia|]. apply Z.div_lt_upper_bound; lia. }
    assert (F : (0 < fuel)%nat). { destruct fuel; [|lia]. cbn in B. lia. }
    rewrite dec_loop_acc. destruct (IH _ B F) as (A & W & N). split; [|split].
    + rewrite forallb_app, A. cbn [forallb]. rewrite D. reflexivity.
    + unfold value in *. rewrite fold_left_app. cbn [fold_left]. rewrite W, V. lia.
    + intro X. apply app_eq_nil in X. destruct X; contradiction.
Qed.

Lemma decimal_value : forall n, 0 <= n -> forallb isdigit (decimal n) = true /\ value (decimal n) = n /\ decimal n <> [].
Proof.
  intros n H. unfold decimal. apply dec_loop_value; [|lia]. split; [exact H|].
  destruct (Z.eq_dec n 0) as [-> |N]; [cbn; lia|].
  pose proof (Z.log2_spec n ltac:(lia)) as [_ L]. pose proof (Z.log2_nonneg n).
  rewrite Nat2Z.inj_succ, Z2Nat.id by lia. eapply Z.lt_le_trans; [exact L|]. apply Z.pow_le_mono_l. lia.
Qed.

Lemma decimal_inj : forall a b, 0 <= a -> 0 <= b -> decimal a = decimal b -> a = b.
Proof. intros a b A B E. rewrite <- (proj1 (proj2 (decimal_value a A))), E. apply decimal_value. exact B. Qed.

Lemma digits_all : forall s acc k rest, forallb isdigit s = true -> (rest = [] \/ exists c r, rest = c :: r /\ isdigit c = false) ->
  digits (s ++ rest) acc k = (fold_left (fun v c => v * 10 + digit_val c) s acc, (k + length s)%nat, rest).
Proof.
  induction s as [|c s IH]; intros acc k rest A R; cbn [app fold_left length].
  - rewrite Nat.add_0_r. destruct R as [-> |(c & r & -> & N)]; cbn [digits]; [reflexivity|]. rewrite N. reflexivity.
  - cbn [forallb] in A. apply andb_true_iff in A. destruct A as [D A]. cbn [digits]. rewrite D, IH by assumption. f_equal. f_equal. lia.
Qed.

Lemma isdigit_not : forall c, isdigit c = true -> isspace c = false /\ tolower c = c.
Proof.
  intros c H. unfold isdigit in H. apply andb_true_iff in H. destruct H as [A B]. apply Nat.leb_le in A, B. unfold isspace, tolower, isupper. split.
  - apply orb_false_iff. split; [apply Nat.eqb_neq; lia|]. apply andb_false_iff. right. apply Nat.leb_gt. lia.
  - destruct ((65 <=? ord c)%nat) eqn:E; [apply Nat.leb_le in E; lia|]. reflexivity.
Qed.

Lemma digits_lower : forall s, forallb isdigit s = true -> map tolower s = s.
Proof.
  induction s as [|c s IH]; intro H; [reflexivity|]. cbn [forallb] in H. apply andb_true_iff in H. destruct H as [D A]. cbn [map].
  rewrite IH by exact A. destruct (isdigit_not c D) as [_ ->]. reflexivity.
Qed.
