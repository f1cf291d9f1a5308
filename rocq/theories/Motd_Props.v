(** Theorems about pam_motd. *)
From Coq Require Import String Ascii List Arith ZArith Bool Lia Sorted Permutation.
From Verif Require Import Base Num_Model Str_Model Str_Facts Opt_Model Opt_Facts Motd_Model.
Import ListNotations.

(** ** What is shown *)
(** [a] comes before [b]: they differ first in a smaller character, or [a] is only the beginning of [b]. *)
Definition before (a b : cstr) : Prop :=
  exists p, (exists y b', a = p /\ b = (p ++ y :: b')%list) \/ (exists x y a' b', a = (p ++ x :: a')%list /\ b = (p ++ y :: b')%list /\ (nat_of_ascii x < nat_of_ascii y)%nat).
(** The file [n] of the directory [d]. *)
Definition path (d n p : cstr) : Prop :=
  ((exists r, n = "/"%char :: r) \/ (exists r, d = (r ++ ["/"%char])%list)) /\ p = (d ++ n)%list \/
  (~ ((exists r, n = "/"%char :: r) \/ (exists r, d = (r ++ ["/"%char])%list)) /\ p = (d ++ "/"%char :: n)%list).
(** The message in a file of 1 to 65536 bytes, without a newline at its end. *)
Inductive message : option (list ascii) -> list cstr -> Prop :=
| message_unread : message None []
| message_empty : message (Some []) []
| message_large : forall t, (65536 < Z.of_nat (length t))%Z -> message (Some t) []
| message_newline : forall t, (Z.of_nat (length t) < 65536)%Z -> message (Some (t ++ [c_nl])) [cut t]
| message_other : forall t c, (Z.of_nat (length t) < 65536)%Z -> c <> c_nl -> message (Some (t ++ [c])) [cut (t ++ [c])].
(** The message for the name [n]: that of the first directory in which it can be opened. *)
Definition shows (E : env) (dirs : list cstr) (n : cstr) (ms : list cstr) : Prop :=
  (exists a d b p c, dirs = (a ++ d :: b)%list /\ path d n p /\ e_open E p = Some c /\ message c ms /\ forall d' p', In d' a -> path d' n p' -> e_open E p' = None) \/
  ((forall d p, In d dirs -> path d n p -> e_open E p = None) /\ ms = []).
(** The directory has an entry [n] that is a file or a symbolic link. *)
Definition has (E : env) (d n : cstr) : Prop :=
  exists es t, e_scan E d = Some es /\ In (n, t) es /\ (t = DReg \/ t = DLnk \/ (t = DUnknown /\ exists p, path d n p /\ e_lstat E p = true)).
(** The messages of the directories: one for each name, in order. *)
Definition of_directories (E : env) (dirs : list cstr) (ms : list cstr) : Prop :=
  exists names mss, StronglySorted before names /\ (forall n, In n names <-> exists d, In d dirs /\ has E d n) /\ Forall2 (shows E dirs) names mss /\ ms = concat mss.
(** The message of the first file that can be opened. *)
Definition of_paths (E : env) (ps : list cstr) (ms : list cstr) : Prop :=
  (exists a p b c, ps = (a ++ p :: b)%list /\ e_open E p = Some c /\ message c ms /\ forall p', In p' a -> e_open E p' = None) \/
  ((forall p, In p ps -> e_open E p = None) /\ ms = []).

Lemma display_message : forall c ms, display_fd c = ms <-> message c ms.
Proof.
  intros c ms. split.
  - intros <-. destruct c as [t|]; [|constructor]. cbn [display_fd]. destruct t as [|c t] using rev_ind; [constructor|]. clear IHt.
    rewrite app_length. cbn [length]. replace (Nat.eqb (length t + 1) 0) with false by (symmetry; apply Nat.eqb_neq; lia). cbn [orb].
    destruct (Z.ltb_spec 65536 (Z.of_nat (length t + 1))); [apply message_large; rewrite app_length; cbn [length]; lia|].
    rewrite last_last. destruct (Ascii.eqb_spec c c_nl) as [->|N]; [rewrite removelast_last; apply message_newline; lia|apply message_other; [lia|exact N]].
  - intro M. destruct M as [| |t L|t L|t c L N]; try reflexivity; cbn [display_fd].
    + replace (Nat.eqb (length t) 0) with false by (symmetry; apply Nat.eqb_neq; lia). cbn [orb]. destruct (Z.ltb_spec 65536 (Z.of_nat (length t))); [reflexivity|lia].
    + rewrite app_length, last_last, removelast_last, Ascii.eqb_refl. cbn [length]. replace (Nat.eqb (length t + 1) 0) with false by (symmetry; apply Nat.eqb_neq; lia). cbn [orb].
      destruct (Z.ltb_spec 65536 (Z.of_nat (length t + 1))); [lia|reflexivity].
    + rewrite app_length, last_last. apply Ascii.eqb_neq in N. rewrite N. cbn [length]. replace (Nat.eqb (length t + 1) 0) with false by (symmetry; apply Nat.eqb_neq; lia). cbn [orb].
      destruct (Z.ltb_spec 65536 (Z.of_nat (length t + 1))); [lia|reflexivity].
Qed.

(** ** Order of the names *)
Lemma ascii_nat_inj : forall x y, nat_of_ascii x = nat_of_ascii y -> x = y.
Proof. intros x y H. rewrite <- (ascii_nat_embedding x), <- (ascii_nat_embedding y). congruence. Qed.
Lemma str_le_iff : forall a b, str_le a b = true <-> a = b \/ before a b.
Proof.
  induction a as [|x a IH]; intro b; cbn [str_le].
  - split; [|reflexivity]. intros _. destruct b as [|y b]; [left; reflexivity|]. right. exists []. left. exists y, b. auto.
  - destruct b as [|y b].
    + split; [discriminate|]. intros [X|(p & [(y & b' & <- & X)|(x' & y & a' & b' & _ & X & _)])]; [discriminate|discriminate X|destruct p; discriminate X].
    + destruct (Nat.eqb_spec (nat_of_ascii x) (nat_of_ascii y)) as [Q|Q].
      * apply ascii_nat_inj in Q. subst y. rewrite IH. split.
        -- intros [->|(p & H)]; [left; reflexivity|]. right. exists (x :: p). destruct H as [(y & b' & -> & ->)|(x' & y & a' & b' & -> & -> & L)]; [left; exists y, b'; auto|right; exists x', y, a', b'; auto].
        -- intros [X|(p & H)]; [left; congruence|]. right. destruct p as [|z p].
           ++ destruct H as [(y & b' & X & _)|(x' & y & a' & b' & X & Y & L)]; [discriminate|]. cbn [app] in X, Y. injection X as -> _. injection Y as -> _. lia.
           ++ destruct H as [(y & b' & X & Y)|(x' & y & a' & b' & X & Y & L)]; cbn [app] in X, Y; injection X as -> ->; injection Y as ->; exists p; [left; exists y, b'; auto|right; exists x', y, a', b'; auto].
      * rewrite Nat.ltb_lt. split.
        -- intro L. right. exists []. right. exists x, y, a, b. auto.
        -- intros [X|(p & H)]; [exfalso; apply Q; congruence|]. destruct p as [|z p].
           ++ destruct H as [(y' & b' & X & _)|(x' & y' & a' & b' & X & Y & L)]; [discriminate|]. cbn [app] in X, Y. congruence.
           ++ exfalso. apply Q. destruct H as [(y' & b' & X & Y)|(x' & y' & a' & b' & X & Y & L)]; cbn [app] in X, Y; congruence.
Qed.
Lemma str_le_refl : forall a, str_le a a = true.
Proof. intro a. apply str_le_iff. left. reflexivity. Qed.
Lemma str_le_total : forall a b, str_le a b = false -> str_le b a = true.
Proof.
  induction a as [|x a IH]; intros [|y b] H; cbn [str_le] in *; try discriminate; try reflexivity.
  destruct (Nat.eqb_spec (nat_of_ascii x) (nat_of_ascii y)) as [Q|Q].
  - rewrite <- Q, Nat.eqb_refl. apply IH. exact H.
  - apply Nat.ltb_ge in H. destruct (Nat.eqb_spec (nat_of_ascii y) (nat_of_ascii x)); [congruence|]. apply Nat.ltb_lt. lia.
Qed.
Lemma str_le_trans : forall a b c, str_le a b = true -> str_le b c = true -> str_le a c = true.
Proof.
  induction a as [|x a IH]; intros [|y b] [|z c] A B; cbn [str_le] in *; try discriminate; try reflexivity.
  destruct (Nat.eqb_spec (nat_of_ascii x) (nat_of_ascii y)) as [Q|Q], (Nat.eqb_spec (nat_of_ascii y) (nat_of_ascii z)) as [R|R].
  - rewrite Q, R, Nat.eqb_refl. apply (IH b c A B).
  - rewrite Q. apply Nat.eqb_neq in R. rewrite R. exact B.
  - rewrite <- R. apply Nat.eqb_neq in Q. rewrite Q. exact A.
  - apply Nat.ltb_lt in A. apply Nat.ltb_lt in B. destruct (Nat.eqb_spec (nat_of_ascii x) (nat_of_ascii z)); [lia|]. apply Nat.ltb_lt. lia.
Qed.
Lemma str_le_anti : forall a b, str_le a b = true -> str_le b a = true -> a = b.
Proof.
  induction a as [|x a IH]; intros [|y b] A B; cbn [str_le] in *; try discriminate; try reflexivity.
  destruct (Nat.eqb_spec (nat_of_ascii x) (nat_of_ascii y)) as [Q|Q].
  - rewrite <- Q, Nat.eqb_refl in B. apply ascii_nat_inj in Q. subst y. f_equal. apply (IH b A B).
  - destruct (Nat.eqb_spec (nat_of_ascii y) (nat_of_ascii x)); [congruence|]. apply Nat.ltb_lt in A. apply Nat.ltb_lt in B. lia.
Qed.
Definition le (a b : cstr) : Prop := str_le a b = true.
Lemma insert_in : forall s l x, In x (insert s l) <-> x = s \/ In x l.
Proof.
  intros s l x. induction l as [|t l IH]; cbn [insert]; [cbn; intuition congruence|]. destruct (str_le s t); cbn [In]; [intuition congruence|]. rewrite IH. tauto.
Qed.
Lemma sort_in : forall l x, In x (sort l) <-> In x l.
Proof. intros l x. unfold sort. induction l as [|t l IH]; cbn [fold_right]; [reflexivity|]. rewrite insert_in, IH. cbn [In]. intuition congruence. Qed.
Lemma insert_sorted : forall s l, StronglySorted le l -> StronglySorted le (insert s l).
Proof.
  intros s l H. induction H as [|t l H IH F]; cbn [insert]; [repeat constructor|]. destruct (str_le s t) eqn:Q.
  - constructor; [constructor; assumption|]. constructor; [exact Q|]. rewrite Forall_forall in *. intros x I. apply (str_le_trans s t x Q). apply F. exact I.
  - constructor; [exact IH|]. rewrite Forall_forall in *. intros x I. apply insert_in in I. destruct I as [->|I]; [apply str_le_total; exact Q|apply F; exact I].
Qed.
Lemma sort_sorted : forall l, StronglySorted le (sort l).
Proof. intro l. unfold sort. induction l as [|t l IH]; cbn [fold_right]; [constructor|apply insert_sorted; exact IH]. Qed.

(** The names without repetitions. *)
Fixpoint dedup (prev : option cstr) (ns : list cstr) : list cstr :=
  match ns with
  | [] => []
  | n :: ns => if match prev with Some p => streq n p | None => false end then dedup (Some n) ns else n :: dedup (Some n) ns
  end.
Lemma show_dedup : forall E dirs ns prev, show_names E dirs prev ns = concat (map (show_name E dirs) (dedup prev ns)).
Proof.
  intros E dirs. induction ns as [|n ns IH]; intro prev; [reflexivity|]. cbn [show_names dedup]. destruct (match prev with Some p => streq n p | None => false end); cbn [map concat app]; rewrite IH; reflexivity.
Qed.
Lemma dedup_spec : forall ns prev, StronglySorted le ns -> (forall p n, prev = Some p -> In n ns -> le p n) ->
  StronglySorted before (dedup prev ns) /\ (forall n, In n (dedup prev ns) <-> In n ns /\ prev <> Some n) /\ (forall p n, prev = Some p -> In n (dedup prev ns) -> before p n).
Proof.
  induction ns as [|n ns IH]; intros prev H P; cbn [dedup].
  - split; [constructor|]. split; [intro x; cbn [In]; tauto|intros p x _ []].
  - inversion H as [|? ? H' F]; subst. rewrite Forall_forall in F.
    assert (P' : forall p m, Some n = Some p -> In m ns -> le p m) by (intros p m Q I; injection Q as <-; apply F; exact I).
    destruct (IH (Some n) H' P') as (S1 & I1 & B1). clear IH. destruct (match prev with Some p => streq n p | None => false end) eqn:Q.
    + destruct prev as [p|]; [|discriminate]. apply streq_eq in Q. subst p. split; [exact S1|]. split.
      * intro x. rewrite I1. cbn [In]. intuition congruence.
      * intros p m Q I. injection Q as <-. apply (B1 n m eq_refl I).
    + assert (NP : prev <> Some n) by (intros ->; rewrite streq_refl in Q; discriminate). split; [|split].
      * constructor; [exact S1|]. apply Forall_forall. intros x I. apply (B1 n x eq_refl I).
      * intro x. cbn [In]. rewrite I1. split.
        -- intros [<-|(I & N)]; [auto|]. split; [auto|]. intros ->. apply N. f_equal. apply str_le_anti; [apply F; exact I|apply (P x n eq_refl); left; reflexivity].
        -- intros ([<-|I] & N); [auto|]. destruct (list_eq_dec Ascii.ascii_dec n x) as [->|D]; [auto|]. right. split; [exact I|congruence].
      * intros p x -> [<-|I].
        -- pose proof (P p n eq_refl (or_introl eq_refl)) as L. apply str_le_iff in L. destruct L as [->|L]; [exfalso; apply NP; reflexivity|exact L].
        -- apply I1 in I. destruct I as (I & N). pose proof (P p x eq_refl (or_intror I)) as L. apply str_le_iff in L. destruct L as [->|L]; [|exact L].
           exfalso. apply NP. f_equal. apply str_le_anti; [apply (P x n eq_refl); left; reflexivity|apply F; exact I].
Qed.

(** ** Lists of paths *)
(** A list of names in which none but the first is empty: the names after an empty first one, or all of them. *)
Inductive names : cstr -> list cstr -> Prop :=
| names_one : forall w, w <> [] -> ~ In ":"%char w -> names w [w]
| names_more : forall w s ws, w <> [] -> ~ In ":"%char w -> names s ws -> names (w ++ ":"%char :: s) (w :: ws).
Definition path_list (v : cstr) (ws : list cstr) : Prop := names v ws \/ exists s, v = ":"%char :: s /\ names s ws.

Definition colons (s : cstr) : nat := count_occ Ascii.ascii_dec s ":"%char.
Lemma colons_app : forall a b, colons (a ++ b) = colons a + colons b.
Proof. intros. apply count_occ_app. Qed.
Lemma colons_none : forall a, ~ In ":"%char a <-> colons a = 0.
Proof. intro a. symmetry. unfold colons. rewrite (count_occ_not_In Ascii.ascii_dec). tauto. Qed.
Lemma colons_cons : forall a, colons (":"%char :: a) = S (colons a).
Proof. reflexivity. Qed.
Lemma no_sep_colon : forall s, no_sep [":"%char] s <-> ~ In ":"%char s.
Proof. intro s. unfold no_sep. split; [intros H I; apply (H _ I); left; reflexivity|intros N c I [<-|[]]; contradiction]. Qed.
Lemma names_words : forall v ws, names v ws -> words [":"%char] v ws /\ length ws = S (colons v) /\ exists c r, v = c :: r /\ c <> ":"%char.
Proof.
  intros v ws N. induction N as [w W C|w s ws W C N (Wd & L & _)].
  - split; [|split].
    + apply (words_last [":"%char] [] w); [intros x []|exact W|apply no_sep_colon; exact C].
    + apply colons_none in C. rewrite C. reflexivity.
    + destruct w as [|c r]; [congruence|]. exists c, r. split; [reflexivity|]. intros ->. apply C. left. reflexivity.
  - split; [|split].
    + apply (words_more [":"%char] [] w ":"%char s ws); [intros x []|exact W|apply no_sep_colon; exact C|left; reflexivity|exact Wd].
    + rewrite colons_app, colons_cons. apply colons_none in C. cbn [length]. lia.
    + destruct w as [|c r]; [congruence|]. exists c, (r ++ ":"%char :: s)%list. split; [reflexivity|]. intros ->. apply C. left. reflexivity.
Qed.
Lemma words_colons : forall v ws, words [":"%char] v ws -> length ws <= S (colons v) /\ (length ws = S (colons v) -> names v ws).
Proof.
  assert (Hp : forall p, all_sep [":"%char] p -> colons p = length p).
  { induction p as [|c p IH]; intro A; [reflexivity|]. destruct (A c (or_introl eq_refl)) as [<-|[]]. rewrite colons_cons, IH; [reflexivity|]. intros x I. apply A. right. exact I. }
  intros v ws W. induction W as [p A|p w A W C|p w x s ws A W C X W' (L & N)].
  - split; cbn [length]; [lia|discriminate].
  - apply (proj1 (no_sep_colon w)) in C. rewrite colons_app, (proj1 (colons_none w) C), (Hp p A). cbn [length]. split; [lia|]. intro Q. destruct p; [|cbn [length] in Q; lia]. apply names_one; assumption.
  - destruct X as [<-|[]]. apply (proj1 (no_sep_colon w)) in C. rewrite !colons_app, colons_cons, (proj1 (colons_none w) C), (Hp p A). cbn [length]. split; [lia|].
    intro Q. destruct p; [|cbn [length] in Q; lia]. apply names_more; [assumption|assumption|]. apply N. cbn [length] in Q. lia.
Qed.
Lemma words_skip : forall s ws, words [":"%char] (":"%char :: s) ws -> words [":"%char] s ws.
Proof.
  intros s ws W. remember (":"%char :: s) as v eqn:V. destruct W as [p A|p w A W C|p w x s' ws A W C X W'].
  - subst p. apply words_none. intros c I. apply A. right. exact I.
  - destruct p as [|c p]; [exfalso; cbn [app] in V; subst w; apply (C ":"%char); left; reflexivity|]. cbn [app] in V. injection V as -> <-.
    apply words_last; [intros y I; apply A; right; exact I|assumption|assumption].
  - destruct p as [|c p].
    + exfalso. cbn [app] in V. destruct w as [|c w]; [congruence|]. cbn [app] in V. injection V as -> _. apply (C ":"%char); left; reflexivity.
    + cbn [app] in V. injection V as -> <-. apply words_more; [intros y I; apply A; right; exact I|assumption..].
Qed.
Lemma colon_words : forall s ws, words [":"%char] s ws -> words [":"%char] (":"%char :: s) ws.
Proof.
  intros s ws W. assert (Ac : forall p, all_sep [":"%char] p -> all_sep [":"%char] (":"%char :: p)) by (intros p A y [<-|I]; [left; reflexivity|apply A; exact I]). destruct W as [p A|p w A W C|p w x s' ws A W C X W'].
  - apply words_none. apply Ac. exact A.
  - apply (words_last [":"%char] (":"%char :: p)); [apply Ac; exact A|assumption|assumption].
  - apply (words_more [":"%char] (":"%char :: p)); [apply Ac; exact A|assumption..].
Qed.
Lemma path_list_words : forall v ws, path_list v ws -> words [":"%char] v ws /\ length ws = num_strs ":"%char v.
Proof.
  intros v ws [N|(s & -> & N)]; destruct (names_words _ _ N) as (W & L & c & r & Q & C).
  - split; [exact W|]. subst v. unfold num_strs. cbn [tl]. rewrite L. unfold colons. cbn [count_occ]. destruct (Ascii.ascii_dec c ":"%char); [contradiction|reflexivity].
  - split; [apply colon_words; exact W|exact L].
Qed.
Lemma words_path_list : forall v ws, v <> [] -> words [":"%char] v ws -> length ws <= num_strs ":"%char v /\ (length ws = num_strs ":"%char v -> path_list v ws).
Proof.
  intros [|c v] ws V W; [congruence|]. unfold num_strs. cbn [tl]. fold (colons v). destruct (Ascii.ascii_dec c ":"%char) as [->|C].
  - apply words_skip in W. destruct (words_colons _ _ W) as (L & N). split; [exact L|]. intro Q. right. exists v. split; [reflexivity|apply N; exact Q].
  - destruct (words_colons _ _ W) as (L & N). assert (X : colons (c :: v) = colons v) by (unfold colons; cbn [count_occ]; destruct (Ascii.ascii_dec c ":"%char); [contradiction|reflexivity]).
    rewrite X in L, N. split; [exact L|]. intro Q. left. apply N. exact Q.
Qed.
Lemma split_string_words : forall v ws, v <> [] -> words [":"%char] v ws ->
  (path_list v ws /\ split_string ":"%char v = map Some ws) \/ ((forall ws', ~ path_list v ws') /\ exists k, split_string ":"%char v = (map Some ws ++ repeat None (S k))%list).
Proof.
  intros v ws V W. destruct (words_path_list v ws V W) as (L & N). unfold split_string. rewrite (words_strtoks _ _ _ W), firstn_all2 by exact L.
  destruct (num_strs ":"%char v - length ws) as [|k] eqn:Q.
  - left. split; [apply N; lia|apply app_nil_r].
  - right. split; [|exists k; reflexivity]. intros ws' P. destruct (path_list_words v ws' P) as (W' & L'). rewrite <- (words_strtoks _ _ _ W), (words_strtoks _ _ _ W') in Q. lia.
Qed.

(** ** Showing *)
Lemma join_path : forall d n, d <> [] -> exists p, join_dir (Some d) n = Some p /\ forall q, path d n q <-> q = p.
Proof.
  intros d n D. destruct d as [|c d]; [congruence|]. unfold join_dir. set (d' := c :: d) in *. clearbody d'. clear c d.
  assert (A : (exists r, d' = (r ++ ["/"%char])%list) <-> Ascii.eqb (last d' NUL) "/"%char = true).
  { rewrite Ascii.eqb_eq. split; [intros (r & ->); apply last_last|]. intro X. exists (removelast d'). rewrite <- X. apply app_removelast_last. exact D. }
  assert (B : (exists r, n = "/"%char :: r) <-> match n with c :: _ => Ascii.eqb c "/"%char | [] => false end = true).
  { destruct n as [|c n]; [split; [intros (r & X); discriminate|discriminate]|]. rewrite Ascii.eqb_eq. split; [intros (r & X); congruence|intros ->; exists n; reflexivity]. }
  eexists. split; [reflexivity|]. intro q. unfold path. rewrite A, B.
  destruct (Ascii.eqb (last d' NUL) "/"%char), (match n with c :: _ => Ascii.eqb c "/"%char | [] => false end); cbn [orb]; intuition congruence.
Qed.
Lemma show_name_spec : forall E n dirs, Forall (fun d => d <> []) dirs -> forall ms, shows E dirs n ms <-> show_name E (map Some dirs) n = ms.
Proof.
  intros E n dirs F. induction F as [|d dirs D F IH]; intro ms; cbn [map show_name].
  - split; [intros [(a & d & b & _ & _ & X & _)|(_ & ->)]; [destruct a; discriminate|reflexivity]|intros <-; right; split; [intros d p []|reflexivity]].
  - destruct (join_path d n D) as (p & J & P). rewrite J. destruct (e_open E p) as [c|] eqn:O.
    + rewrite display_message. split.
      * intros [(a & d' & b & q & c' & X & Q & O' & M & N)|(N & _)].
        -- destruct a as [|d0 a]; cbn [app] in X; injection X as -> ->.
           ++ apply P in Q. subst q. congruence.
           ++ exfalso. pose proof (N d0 p (or_introl eq_refl) (proj2 (P p) eq_refl)). congruence.
        -- exfalso. pose proof (N d p (or_introl eq_refl) (proj2 (P p) eq_refl)). congruence.
      * intro M. left. exists [], d, dirs, p, c. repeat split; try assumption; [apply P; reflexivity|intros d' p' []].
    + rewrite <- IH. split.
      * intros [(a & d' & b & q & c' & X & Q & O' & M & N)|(N & ->)].
        -- destruct a as [|d0 a]; cbn [app] in X; injection X as -> ->; [apply P in Q; subst q; congruence|]. left. exists a, d', b, q, c'. repeat split; try assumption. intros d1 p1 I. apply N. right. exact I.
        -- right. split; [|reflexivity]. intros d1 p1 I. apply N. right. exact I.
      * intros [(a & d' & b & q & c' & -> & Q & O' & M & N)|(N & ->)].
        -- left. exists (d :: a), d', b, q, c'. repeat split; try assumption. intros d1 p1 [<-|I] X; [apply P in X; subst p1; exact O|apply (N d1 p1 I X)].
        -- right. split; [|reflexivity]. intros d1 p1 [<-|I] X; [apply P in X; subst p1; exact O|apply (N d1 p1 I X)].
Qed.
Lemma show_first_spec : forall E k ps ms, of_paths E ps ms <-> show_first E (map Some ps ++ repeat None k) = ms.
Proof.
  intros E k ps. induction ps as [|p ps IH]; intro ms; cbn [map app show_first].
  - assert (X : show_first E (repeat None k) = []) by (induction k as [|k IHk]; [reflexivity|exact IHk]). rewrite X.
    split; [intros [(a & d & b & _ & Y & _)|(_ & ->)]; [destruct a; discriminate|reflexivity]|intros <-; right; split; [intros d []|reflexivity]].
  - destruct (e_open E p) as [c|] eqn:O.
    + rewrite display_message. split.
      * intros [(a & d' & b & c' & X & O' & M & N)|(N & _)].
        -- destruct a as [|d0 a]; cbn [app] in X; injection X as -> ->; [congruence|]. exfalso. pose proof (N d0 (or_introl eq_refl)). congruence.
        -- exfalso. pose proof (N p (or_introl eq_refl)). congruence.
      * intro M. left. exists [], p, ps, c. repeat split; try assumption. intros d' [].
    + rewrite <- IH. split.
      * intros [(a & d' & b & c' & X & O' & M & N)|(N & ->)].
        -- destruct a as [|d0 a]; cbn [app] in X; injection X as -> ->; [congruence|]. left. exists a, d', b, c'. repeat split; try assumption. intros d1 I. apply N. right. exact I.
        -- right. split; [|reflexivity]. intros d1 I. apply N. right. exact I.
      * intros [(a & d' & b & c' & -> & O' & M & N)|(N & ->)].
        -- left. exists (p :: a), d', b, c'. repeat split; try assumption. intros d1 [<-|I]; [exact O|apply (N d1 I)].
        -- right. split; [|reflexivity]. intros d1 [<-|I]; [exact O|apply (N d1 I)].
Qed.
Lemma scan_spec : forall E dirs, Forall (fun d => d <> []) dirs -> exists ns, scan_all E (map Some dirs) = Ok ns /\ forall n, In n ns <-> exists d, In d dirs /\ has E d n.
Proof.
  intros E dirs F. induction F as [|d dirs D F (ns & IH & N)]; cbn [map scan_all].
  - exists []. split; [reflexivity|]. intro n. split; [intros []|intros (d & [] & _)].
  - cbn [scan bind]. rewrite IH. cbn [bind]. eexists. split; [reflexivity|]. intro n. rewrite in_app_iff, N, in_map_iff.
    assert (X : (exists x, fst x = n /\ In x (filter (kept E (Some d)) match e_scan E d with Some es => es | None => [] end)) <-> has E d n).
    { destruct (join_path d n D) as (p & J & P). split.
      - intros ((n' & t) & Q & I). cbn [fst] in Q. subst n'. apply filter_In in I. destruct I as (I & K). destruct (e_scan E d) as [es|] eqn:Sc; [|contradiction I].
        exists es, t. split; [exact Sc|]. split; [exact I|]. unfold kept in K. cbn [snd fst] in K. destruct t; [auto|auto| |discriminate]. rewrite J in K. right. right. split; [reflexivity|]. exists p. split; [apply P; reflexivity|exact K].
      - intros (es & t & Sc & I & K). exists (n, t). split; [reflexivity|]. apply filter_In. rewrite Sc. split; [exact I|]. unfold kept. cbn [snd fst].
        destruct K as [->|[->|(-> & q & Q & K)]]; [reflexivity|reflexivity|]. rewrite J. apply P in Q. subst q. exact K. }
    rewrite X. split.
    + intros [H|(d' & I & H)]; [exists d; split; [left; reflexivity|exact H]|exists d'; split; [right; exact I|exact H]].
    + intros (d' & [<-|I] & H); [left; exact H|right; exists d'; split; assumption].
Qed.
Lemma before_irrefl : forall a, ~ before a a.
Proof.
  intros a (p & [(y & b & -> & X)|(x & y & a' & b' & -> & X & L)]).
  - apply (f_equal (@length ascii)) in X. rewrite app_length in X. cbn [length] in X. lia.
  - apply app_inv_head in X. injection X as -> _. lia.
Qed.
Lemma before_le : forall a b, before a b -> le a b.
Proof. intros a b B. apply str_le_iff. right. exact B. Qed.
Lemma sorted_unique : forall l1 l2, StronglySorted before l1 -> StronglySorted before l2 -> (forall x, In x l1 <-> In x l2) -> l1 = l2.
Proof.
  intros l1 l2 H1. revert l2. induction H1 as [|x l1 H1 IH F1]; intros l2 H2 I.
  - destruct l2 as [|y l2]; [reflexivity|]. exfalso. apply (I y). left. reflexivity.
  - destruct H2 as [|y l2 H2 F2]; [exfalso; apply (I x); left; reflexivity|]. rewrite Forall_forall in F1, F2.
    assert (x = y).
    { destruct (proj1 (I x) (or_introl eq_refl)) as [->|A]; [reflexivity|]. destruct (proj2 (I y) (or_introl eq_refl)) as [->|B]; [reflexivity|].
      apply str_le_anti; apply before_le; [apply F1; exact B|apply F2; exact A]. }
    subst y. f_equal. apply IH; [exact H2|]. intro z. split; intro Z.
    + destruct (proj1 (I z) (or_intror Z)) as [<-|A]; [|exact A]. exfalso. apply (before_irrefl x). apply F1. exact Z.
    + destruct (proj2 (I z) (or_intror Z)) as [<-|A]; [|exact A]. exfalso. apply (before_irrefl x). apply F2. exact Z.
Qed.
Lemma show_directories_spec : forall E dirs, Forall (fun d => d <> []) dirs -> forall ms, of_directories E dirs ms <-> show_directories E (map Some dirs) = Ok ms.
Proof.
  intros E dirs F ms. destruct (scan_spec E dirs F) as (ns & Sc & N). unfold show_directories. rewrite Sc. cbn [bind]. rewrite show_dedup.
  destruct (dedup_spec (sort ns) None (sort_sorted ns)) as (S1 & I1 & _); [discriminate|].
  assert (I2 : forall n, In n (dedup None (sort ns)) <-> exists d, In d dirs /\ has E d n).
  { intro n. rewrite I1, sort_in, N. split; [tauto|intro H; split; [exact H|discriminate]]. }
  assert (X : forall l mss, Forall2 (shows E dirs) l mss <-> mss = map (show_name E (map Some dirs)) l).
  { induction l as [|n l IHl]; intro mss.
    - split; [intro H; inversion H; reflexivity|intros ->; constructor].
    - split.
      + intro H. inversion H as [|? m ? mss' A B]; subst. cbn [map]. f_equal; [symmetry; apply show_name_spec; assumption|apply IHl; exact B].
      + intros ->. cbn [map]. constructor; [apply show_name_spec; [exact F|reflexivity]|apply IHl; reflexivity]. }
  split.
  - intros (l & mss & S2 & I & Fm & ->). apply X in Fm. subst mss. replace l with (dedup None (sort ns)); [reflexivity|]. apply sorted_unique; [exact S1|exact S2|]. intro x. rewrite I2, I. reflexivity.
  - intro Q. injection Q as <-. exists (dedup None (sort ns)), (map (show_name E (map Some dirs)) (dedup None (sort ns))). split; [exact S1|]. split; [exact I2|]. split; [apply X; reflexivity|reflexivity].
Qed.
Lemma show_directories_ok : forall E dirs, Forall (fun d => d <> []) dirs -> exists b, show_directories E (map Some dirs) = Ok b.
Proof. intros E dirs F. destruct (scan_spec E dirs F) as (ns & Sc & _). unfold show_directories. rewrite Sc. eexists. reflexivity. Qed.
Lemma scan_null : forall E ws k, scan_all E (map Some ws ++ repeat None (S k)) = UB.
Proof. intros E ws k. induction ws as [|w ws IH]; cbn [map app]; [reflexivity|]. cbn [scan_all scan bind]. rewrite IH. reflexivity. Qed.

(** ** The session *)
(** What the option [k] gives: the value of the last one, nothing if that is empty or there is none. *)
Definition given (k : string) (args : list cstr) (o : option cstr) : Prop :=
  (exists a v b, args = (a ++ (lit k ++ v) :: b)%list /\ (forall v', ~ In (lit k ++ v')%list b) /\ ((v = [] /\ o = None) \/ (v <> [] /\ o = Some v))) \/
  ((forall v', ~ In (lit k ++ v')%list args) /\ o = None).
(** The lists of files and of directories. *)
Definition lists (args : list cstr) (m d : option cstr) : Prop :=
  exists m' d', given "motd=" args m' /\ given "motd_dir=" args d' /\
    ((m' = None /\ d' = None /\ m = Some (lit "/etc/motd:/run/motd:/usr/lib/motd") /\ d = Some (lit "/etc/motd.d:/run/motd.d:/usr/lib/motd.d")) \/
     ((m' <> None \/ d' <> None) /\ m = m' /\ d = d')).
(** The privileges of the user can be taken on. *)
Definition acts_as_user (E : env) : Prop := exists u, e_get_user E = (PAM_SUCCESS, u) /\ e_known E u = true /\ e_drop E = true.
(** What is shown for a list, if there is one. *)
Definition all_paths (E : env) (m : option cstr) (ms : list cstr) : Prop :=
  (m = None /\ ms = []) \/ exists v ws, m = Some v /\ words [":"%char] v ws /\ of_paths E ws ms.
Definition all_directories (E : env) (d : option cstr) (ms : list cstr) : Prop :=
  (d = None /\ ms = []) \/ exists v ws, d = Some v /\ path_list v ws /\ of_directories E ws ms.
Definition session_result (E : env) (r : Z) (put : bool) : Prop :=
  (e_regain E = false /\ r = PAM_SESSION_ERR /\ put = false) \/ (e_regain E = true /\ put = true /\ (e_putenv E = PAM_SUCCESS -> r = PAM_IGNORE) /\ (e_putenv E <> PAM_SUCCESS -> r = e_putenv E)).

Lemma opt_fold : forall args, exists m d, fold_left motd_arg args (None, None) = (m, d) /\ given "motd=" args m /\ given "motd_dir=" args d.
Proof.
  assert (Hnot : forall k b a, (forall v, a <> (lit k ++ v)%list) -> (forall v', ~ In (lit k ++ v')%list b) -> forall v', ~ In (lit k ++ v')%list (b ++ [a])).
  { intros k b a N H v' I. apply in_app_iff in I. destruct I as [I|[I|[]]]; [apply (H v' I)|apply (N v' I)]. }
  assert (Hkeep : forall k args a o, (forall v, a <> (lit k ++ v)%list) -> given k args o -> given k (args ++ [a]) o).
  { intros k args a o N [(x & v & b & -> & H & V)|(H & ->)].
    - left. exists x, v, (b ++ [a])%list. split; [rewrite <- app_assoc; reflexivity|]. split; [apply Hnot; assumption|exact V].
    - right. split; [apply Hnot; assumption|reflexivity]. }
  assert (Hset : forall k args v, given k (args ++ [(lit k ++ v)%list]) (match v with [] => None | _ => Some v end)).
  { intros k args v. left. exists args, v, []. split; [reflexivity|]. split; [intros v' []|]. destruct v; [left; auto|right; split; [discriminate|reflexivity]]. }
  intro args. induction args as [|a args (m & d & IH & M & D)] using rev_ind.
  - exists None, None. split; [reflexivity|]. split; right; split; try reflexivity; intros v' [].
  - rewrite fold_left_app, IH. cbn [fold_left]. unfold motd_arg. destruct (skip_prefix (lit "motd=") a) as [v|] eqn:Q.
    + apply skip_prefix_some in Q. subst a. eexists _, _. split; [reflexivity|]. split; [apply Hset|]. cbn [snd]. apply Hkeep; [|exact D]. intros v' X. discriminate X.
    + pose proof (proj1 (skip_prefix_none _ _) Q) as Q'. destruct (skip_prefix (lit "motd_dir=") a) as [v|] eqn:R.
      * apply skip_prefix_some in R. subst a. eexists _, _. split; [reflexivity|]. split; [|apply Hset]. cbn [fst]. apply Hkeep; [|exact M]. intros v' X. discriminate X.
      * pose proof (proj1 (skip_prefix_none _ _) R) as R'. exists m, d. split; [reflexivity|]. split; apply Hkeep; try assumption; intros v' X; [apply Q'|apply R']; exists v'; exact X.
Qed.
Lemma app_no_split : forall k (args : list cstr) o o', given k args o -> given k args o' -> o = o'.
Proof.
  intros k args o o' G G'.
  assert (U : forall args, (forall v', ~ In (lit k ++ v')%list args) -> forall o, given k args o -> o = None).
  { intros l N p [(a & v & b & -> & _)|(_ & P)]; [|exact P]. exfalso. apply (N v). apply in_app_iff. right. left. reflexivity. }
  destruct G as [(a & v & b & -> & N & V)|(N & ->)]; [|symmetry; apply (U args N o' G')].
  destruct G' as [(a' & v' & b' & X & N' & V')|(N' & ->)].
  - assert (v = v').
    { revert a' X. induction a as [|c a IH]; intros [|c' a'] X; cbn [app] in X.
      - injection X as X _. apply app_inv_head in X. exact X.
      - injection X as X Y. exfalso. apply (N v'). rewrite Y. apply in_app_iff. right. left. reflexivity.
      - injection X as X Y. exfalso. apply (N' v). rewrite <- Y. apply in_app_iff. right. left. reflexivity.
      - injection X as _ X. apply (IH a' X). }
    subst v'. destruct V as [(-> & ->)|(W & ->)], V' as [(W' & ->)|(W' & ->)]; congruence.
  - exfalso. apply (N' v). apply in_app_iff. right. left. reflexivity.
Qed.
Lemma given_nonempty : forall k args v, given k args (Some v) -> v <> [].
Proof. intros k args v [(a & w & b & _ & _ & [(_ & X)|(W & X)])|(_ & X)]; congruence. Qed.
Lemma session_lists : forall E args m d, lists args m d ->
  open_session E false args =
    bind (try_to_display E (option_map (split_string ":"%char) m) (option_map (split_string ":"%char) d))
      (fun '(r, ms) => Ok (if (r =? PAM_SUCCESS)%Z then (if (e_putenv E =? PAM_SUCCESS)%Z then PAM_IGNORE else e_putenv E, ms, true) else (r, ms, false))).
Proof.
  intros E args m d (m' & d' & Gm & Gd & L). destruct (opt_fold args) as (m1 & d1 & Fo & M & D). unfold open_session. rewrite Fo.
  rewrite <- (app_no_split _ _ _ _ Gm M), <- (app_no_split _ _ _ _ Gd D). destruct L as [(-> & -> & -> & ->)|(N & -> & ->)]; [reflexivity|].
  destruct m', d'; try reflexivity. destruct N; congruence.
Qed.
Lemma lists_nonempty : forall args m d, lists args m d -> (forall v, m = Some v -> v <> []) /\ (forall v, d = Some v -> v <> []).
Proof.
  intros args m d (m' & d' & Gm & Gd & [(_ & _ & -> & ->)|(_ & -> & ->)]).
  - split; intros v X; injection X as <-; discriminate.
  - split; intros v ->; [apply (given_nonempty _ _ _ Gm)|apply (given_nonempty _ _ _ Gd)].
Qed.
Lemma path_list_nonempty : forall v ws, path_list v ws -> Forall (fun d => d <> []) ws.
Proof. intros v ws P. destruct (path_list_words v ws P) as (W & _). apply (words_nonempty _ _ _ W). Qed.

(** Every list of arguments means one pair of lists. *)
Theorem motd_lists : forall args, exists m d, lists args m d /\ forall m' d', lists args m' d' -> m' = m /\ d' = d.
Proof.
  intro args. destruct (opt_fold args) as (m1 & d1 & Fo & M & D).
  assert (X : exists m d, lists args m d).
  { destruct m1 as [v|].
    - exists (Some v), d1. exists (Some v), d1. repeat split; try assumption. right. repeat split. left. discriminate.
    - destruct d1 as [v|].
      + exists None, (Some v). exists None, (Some v). repeat split; try assumption. right. repeat split. right. discriminate.
      + eexists _, _. exists None, None. repeat split; try assumption. left. repeat split. }
  destruct X as (m & d & L). exists m, d. split; [exact L|]. intros m' d' L'.
  destruct L as (a & b & A & B & L), L' as (a' & b' & A' & B' & L'). pose proof (app_no_split _ _ _ _ A A') as <-. pose proof (app_no_split _ _ _ _ B B') as <-.
  destruct L as [(-> & -> & -> & ->)|(N & -> & ->)], L' as [(Qa & Qb & -> & ->)|(N' & -> & ->)]; auto; exfalso; [destruct N'|destruct N]; congruence.
Qed.

(** Of the files the first that can be opened is shown, and of the directories every name once, in order, from the first directory where it
    can be opened: these and no others are the messages, and the result is as it should be. *)
Theorem motd_shown : forall E args m d r ms put, lists args m d -> acts_as_user E -> (forall v, d = Some v -> exists ws, path_list v ws) ->
  (open_session E false args = Ok (r, ms, put) <->
   exists a b, ms = (a ++ b)%list /\ all_paths E m a /\ all_directories E d b /\ session_result E r put).
Proof.
  intros E args m d r ms put L (u & G & K & Dr) P. rewrite (session_lists E args m d L). destruct (lists_nonempty args m d L) as (Nm & Nd).
  unfold try_to_display. rewrite G, K, Dr. cbn [negb orb Z.eqb].
  assert (A : exists a, match option_map (split_string ":"%char) m with Some ps => show_first E ps | None => [] end = a /\ forall x, all_paths E m x <-> x = a).
  { destruct m as [v|]; cbn [option_map].
    - eexists. split; [reflexivity|]. intro x. pose proof (strtoks_words [":"%char] v) as W.
      assert (X : exists k, split_string ":"%char v = (map Some (strtoks [":"%char] v) ++ repeat None k)%list).
      { destruct (split_string_words v _ (Nm v eq_refl) W) as [(_ & X)|(_ & k & X)]; [exists 0; rewrite X; symmetry; apply app_nil_r|exists (S k); exact X]. }
      destruct X as (k & X). rewrite X. split.
      + intros [(Q & _)|(v' & ws & Q & W' & O)]; [discriminate|]. injection Q as <-. apply words_strtoks in W'. subst ws. symmetry. apply show_first_spec. exact O.
      + intros ->. right. exists v, (strtoks [":"%char] v). repeat split; try assumption. apply (show_first_spec E k). reflexivity.
    - exists []. split; [reflexivity|]. intro x. unfold all_paths. split; [intros [(_ & Q)|(v & ws & Q & _)]; [exact Q|discriminate]|auto]. }
  destruct A as (a & Qa & A). rewrite Qa.
  assert (B : exists b, match option_map (split_string ":"%char) d with Some ds => show_directories E ds | None => Ok [] end = Ok b /\ forall x, all_directories E d x <-> x = b).
  { destruct d as [v|]; cbn [option_map].
    - destruct (P v eq_refl) as (ws & Pl). destruct (path_list_words v ws Pl) as (W & _).
      destruct (split_string_words v ws (Nd v eq_refl) W) as [(_ & X)|(X & _)]; [|exfalso; apply (X ws Pl)]. rewrite X.
      pose proof (path_list_nonempty v ws Pl) as Ne. destruct (show_directories_ok E ws Ne) as (b & Y). exists b. split; [exact Y|].
      intro x. split.
      + intros [(Q & _)|(v' & ws' & Q & Pl' & O)]; [discriminate|]. injection Q as <-. destruct (path_list_words v ws' Pl') as (W' & _). pose proof (words_strtoks _ _ _ W) as E1. rewrite (words_strtoks _ _ _ W') in E1. subst ws'.
        apply (show_directories_spec E ws Ne) in O. congruence.
      + intros ->. right. exists v, ws. repeat split; try assumption. apply (show_directories_spec E ws Ne). exact Y.
    - exists []. split; [reflexivity|]. intro x. unfold all_directories. split; [intros [(_ & Q)|(v & ws & Q & _)]; [exact Q|discriminate]|auto]. }
  destruct B as (b & Qb & B). rewrite Qb. cbn [bind].
  assert (X : (exists a' b', ms = (a' ++ b')%list /\ all_paths E m a' /\ all_directories E d b' /\ session_result E r put) <-> ms = (a ++ b)%list /\ session_result E r put).
  { split; [intros (a' & b' & -> & A' & B' & Rs)|intros (-> & Rs)].
    - apply A in A'. apply B in B'. subst a' b'. split; [reflexivity|exact Rs].
    - exists a, b. split; [reflexivity|]. split; [apply A; reflexivity|]. split; [apply B; reflexivity|exact Rs]. }
  rewrite X. unfold session_result. destruct (e_regain E); cbn [bind Z.eqb].
  - change (PAM_SUCCESS =? PAM_SUCCESS)%Z with true. cbn iota. destruct (Z.eqb_spec (e_putenv E) PAM_SUCCESS) as [Q|Q].
    + split; [intro H; injection H as <- <- <-; split; [reflexivity|]; right; repeat split; congruence|]. intros (-> & [(Z0 & _)|(_ & -> & Z1 & _)]); [discriminate|]. rewrite (Z1 Q). reflexivity.
    + split; [intro H; injection H as <- <- <-; split; [reflexivity|]; right; repeat split; congruence|]. intros (-> & [(Z0 & _)|(_ & -> & _ & Z1)]); [discriminate|]. rewrite (Z1 Q). reflexivity.
  - change (PAM_SESSION_ERR =? PAM_SUCCESS)%Z with false. cbn iota.
    split; [intro H; injection H as <- <- <-; split; [reflexivity|]; left; repeat split|]. intros (-> & [(_ & -> & ->)|(Z0 & _)]); [reflexivity|discriminate].
Qed.

(** Nothing is shown when the session is silent or the privileges of the user cannot be taken on. *)
Theorem motd_nothing : forall E args, open_session E true args = Ok (PAM_IGNORE, [], false) /\ (~ acts_as_user E -> open_session E false args = Ok (PAM_SESSION_ERR, [], false)).
Proof.
  intros E args. split; [reflexivity|]. intro N. destruct (motd_lists args) as (m & d & L & _). rewrite (session_lists E args m d L). unfold try_to_display.
  destruct (e_get_user E) as [r u] eqn:G. destruct (Z.eqb_spec r PAM_SUCCESS) as [->|R]; cbn [negb orb]; [|reflexivity].
  destruct (e_known E u) eqn:K; cbn [negb orb]; [|reflexivity]. destruct (e_drop E) eqn:Dr; cbn [negb]; [|reflexivity].
  exfalso. apply N. exists u. auto.
Qed.

(** A list of directories with an empty name after the first one makes the module read through a null pointer, whatever is in the directories. *)
Theorem motd_empty_directory_refuted : forall E args m v, lists args m (Some v) -> acts_as_user E -> (forall ws, ~ path_list v ws) -> open_session E false args = UB.
Proof.
  intros E args m v L (u & G & K & Dr) P. rewrite (session_lists E args m _ L). destruct (lists_nonempty args m _ L) as (_ & Nd).
  unfold try_to_display. rewrite G, K, Dr. cbn [negb orb option_map].
  destruct (split_string_words v _ (Nd v eq_refl) (strtoks_words _ v)) as [(X & _)|(_ & k & X)]; [exfalso; apply (P _ X)|].
  unfold show_directories. rewrite X, scan_null. reflexivity.
Qed.

(** A directory named like a message hides the message of the directories after it, though a directory is no candidate itself. *)
Theorem motd_hidden_refuted : exists E args, acts_as_user E /\ lists args None (Some (lit "/a:/b")) /\ has E (lit "/b") (lit "x") /\ ~ has E (lit "/a") (lit "x") /\
  e_open E (lit "/b/x") = Some (Some (lit "hello")) /\ open_session E false args = Ok (PAM_IGNORE, [], true).
Proof.
  exists (mkEnv (PAM_SUCCESS, lit "u") (fun _ => true) true true
    (fun p => if streq p (lit "/a/x") then Some None else if streq p (lit "/b/x") then Some (Some (lit "hello")) else None)
    (fun d => if streq d (lit "/a") then Some [(lit "x", DOther)] else if streq d (lit "/b") then Some [(lit "x", DReg)] else None) (fun _ => true) PAM_SUCCESS), [lit "motd_dir=/a:/b"].
  split; [exists (lit "u"); auto|]. split.
  - exists None, (Some (lit "/a:/b")). split; [|split].
    + right. split; [|reflexivity]. intros v' [X|[]]. discriminate X.
    + left. exists [], (lit "/a:/b"), []. split; [reflexivity|]. split; [intros v' []|]. right. split; [discriminate|reflexivity].
    + right. split; [right; discriminate|auto].
  - split; [exists [(lit "x", DReg)], DReg; split; [reflexivity|]; split; [left; reflexivity|auto]|]. split.
    + intros (es & t & Sc & I & T). cbn [e_scan] in Sc. change (streq (lit "/a") (lit "/a")) with true in Sc. cbn iota in Sc. injection Sc as <-. destruct I as [I|[]]. injection I as <-. destruct T as [T|[T|(T & _)]]; discriminate.
    + split; [reflexivity|vm_compute; reflexivity].
Qed.

(** ** Examples *)
Definition ex_env : env := mkEnv (PAM_SUCCESS, lit "u") (fun _ => true) true true
  (fun p => if streq p (lit "/run/m") then Some (Some (lit "run" ++ [c_nl])) else if streq p (lit "/e/b") then Some (Some (lit "e-b")) else if streq p (lit "/r/b") then Some (Some (lit "r-b")) else
            if streq p (lit "/r/a") then Some (Some (lit "r-a" ++ [c_nl; c_nl])) else None)
  (fun d => if streq d (lit "/e") then Some [(lit ".", DOther); (lit "b", DReg)] else if streq d (lit "/r") then Some [(lit "b", DLnk); (lit "a", DUnknown)] else None) (fun p => streq p (lit "/r/a")) PAM_SUCCESS.
Definition ex_args : list cstr := [lit "motd_dir=/x"; lit "motd=/etc/m:/run/m"; lit "motd_dir=/e:/r"].
Example motd_example : open_session ex_env false ex_args = Ok (PAM_IGNORE, [lit "run"; lit "r-a" ++ [c_nl]; lit "e-b"]%list, true).
Proof. vm_compute. reflexivity. Qed.
Example motd_shown_example : lists ex_args (Some (lit "/etc/m:/run/m")) (Some (lit "/e:/r")) /\ acts_as_user ex_env /\ path_list (lit "/e:/r") [lit "/e"; lit "/r"].
Proof.
  split; [|split].
  - exists (Some (lit "/etc/m:/run/m")), (Some (lit "/e:/r")). split; [|split].
    + left. exists [lit "motd_dir=/x"], (lit "/etc/m:/run/m"), [lit "motd_dir=/e:/r"]. split; [reflexivity|]. split; [intros v' [X|[]]; discriminate X|]. right. split; [discriminate|reflexivity].
    + left. exists [lit "motd_dir=/x"; lit "motd=/etc/m:/run/m"], (lit "/e:/r"), []. split; [reflexivity|]. split; [intros v' []|]. right. split; [discriminate|reflexivity].
    + right. split; [left; discriminate|auto].
  - exists (lit "u"). auto.
  - left. apply (names_more (lit "/e") (lit "/r")); [discriminate|intros [X|[X|[]]]; discriminate X|]. apply names_one; [discriminate|intros [X|[X|[]]]; discriminate X].
Qed.
Example motd_nothing_example : ~ acts_as_user (mkEnv (PAM_SUCCESS, lit "u") (fun _ => true) false true (fun _ => None) (fun _ => None) (fun _ => false) PAM_SUCCESS).
Proof. intros (u & _ & _ & X). discriminate X. Qed.
Example motd_empty_example : lists [lit "motd_dir=/e:"] None (Some (lit "/e:")) /\ (forall ws, ~ path_list (lit "/e:") ws) /\ open_session ex_env false [lit "motd_dir=/e:"] = UB.
Proof.
  split; [|split; [|vm_compute; reflexivity]].
  - exists None, (Some (lit "/e:")). split; [|split].
    + right. split; [|reflexivity]. intros v' [X|[]]. discriminate X.
    + left. exists [], (lit "/e:"), []. split; [reflexivity|]. split; [intros v' []|]. right. split; [discriminate|reflexivity].
    + right. split; [right; discriminate|auto].
  - intros ws P. destruct (path_list_words _ _ P) as (W & L). apply words_strtoks in W. rewrite <- W in L. vm_compute in L. discriminate L.
Qed.
Example motd_lists_example : lists [lit "motd=/x"; lit "motd="] (Some (lit "/etc/motd:/run/motd:/usr/lib/motd")) (Some (lit "/etc/motd.d:/run/motd.d:/usr/lib/motd.d")).
Proof.
  exists None, None. split; [|split].
  - left. exists [lit "motd=/x"], [], []. split; [reflexivity|]. split; [intros v' []|]. left. auto.
  - right. split; [|reflexivity]. intros v' [X|[X|[]]]; discriminate X.
  - left. auto.
Qed.

Print Assumptions motd_lists.
Print Assumptions motd_shown.
Print Assumptions motd_nothing.
Print Assumptions motd_empty_directory_refuted.
Print Assumptions motd_hidden_refuted.
