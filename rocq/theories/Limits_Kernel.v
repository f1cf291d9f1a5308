(** The reading of /proc/1/limits by pam_limits. *)
From Coq Require Import String Ascii List Arith ZArith Bool Lia.
From Verif Require Import Base Num_Model Str_Model Str_Facts Opt_Model Opt_Facts Limits_Model.
Import ListNotations.
Local Open Scope Z_scope.

(** ** The text of the kernel *)
(** printf's %-<k>s. *)
Definition pad (k : nat) (s : cstr) : cstr := (s ++ repeat " "%char (k - length s))%list.
(** %lu, or the word for no limit. *)
Definition show (x : Z) : cstr := if x =? 2 ^ 64 - 1 then lit "unlimited" else decimal x.
(** A line, "%-25s %-20s %-20s %-10s\n", the last field only if there is a unit. *)
Definition kernel_line (name : string) (unit : option string) (soft hard : Z) : cstr :=
  (pad 25 (lit name) ++ " "%char :: pad 20 (show soft) ++ " "%char :: pad 20 (show hard) ++ " "%char :: match unit with Some u => pad 10 (lit u) | None => [] end ++ [c_nl])%list.
Definition heading : cstr := (pad 25 (lit "Limit") ++ " "%char :: pad 20 (lit "Soft Limit") ++ " "%char :: pad 20 (lit "Hard Limit") ++ " "%char :: pad 10 (lit "Units") ++ [c_nl])%list.
(** The resources in the order of their numbers, with the units. *)
Definition KERNEL : list (string * option string) :=
  [("Max cpu time", Some "seconds"); ("Max file size", Some "bytes"); ("Max data size", Some "bytes"); ("Max stack size", Some "bytes"); ("Max core file size", Some "bytes"); ("Max resident set", Some "bytes");
   ("Max processes", Some "processes"); ("Max open files", Some "files"); ("Max locked memory", Some "bytes"); ("Max address space", Some "bytes"); ("Max file locks", Some "locks"); ("Max pending signals", Some "signals");
   ("Max msgqueue size", Some "bytes"); ("Max nice priority", None); ("Max realtime priority", None); ("Max realtime timeout", Some "us")]%string.
Fixpoint kernel_rows (n : nat) (k : nat -> Z * Z) (rows : list (string * option string)) : cstr :=
  match rows with [] => [] | (name, unit) :: rows => (kernel_line name unit (fst (k n)) (snd (k n)) ++ kernel_rows (S n) k rows)%list end.
(** What the kernel writes for the limits [k]. *)
Definition kernel_text (k : nat -> Z * Z) : cstr := (heading ++ kernel_rows 0 k KERNEL)%list.

(** ** The fields of a line *)
Definition no_space (w : cstr) : Prop := forallb (fun c => negb (Ascii.eqb " "%char c)) w = true.
Definition spaces (s : cstr) : Prop := forallb (Ascii.eqb " "%char) s = true.
Lemma forallb_rev : forall {A} (p : A -> bool) l, forallb p (rev l) = forallb p l.
Proof. intros A p l. induction l as [|x l IH]; [reflexivity|]. cbn [rev forallb]. rewrite forallb_app, IH. cbn [forallb]. rewrite andb_true_r. apply andb_comm. Qed.
Lemma skip_back_spec : forall x c sp, c <> " "%char -> x <> [] -> spaces sp -> skip_back (x ++ c :: sp) = Some (x ++ [c])%list.
Proof.
  intros x c sp N X SP. unfold skip_back. rewrite rev_app_distr. cbn [rev]. rewrite <- app_assoc. cbn [app]. rewrite span_spec; [|rewrite forallb_rev; exact SP|right; exists c, (rev x); split; [reflexivity|]; apply Ascii.eqb_neq; intro Q; apply N; symmetry; exact Q].
  cbn [snd rev]. rewrite rev_involutive. destruct x as [|a [|b x]]; [contradiction| |]; reflexivity.
Qed.
Lemma skip_back_word : forall x w sp, no_space w -> w <> [] -> x <> [] -> spaces sp -> skip_back (x ++ w ++ sp) = Some (x ++ w)%list.
Proof.
  intros x w sp N W X SP. destruct (exists_last W) as (w0 & c & ->). unfold no_space in N. rewrite forallb_app in N. apply andb_true_iff in N. destruct N as (_ & N). cbn [forallb] in N. rewrite andb_true_r in N. apply negb_true_iff, Ascii.eqb_neq in N.
  rewrite <- app_assoc. cbn [app]. rewrite app_assoc. rewrite skip_back_spec; [rewrite <- app_assoc; reflexivity|intro Q; apply N; symmetry; exact Q|destruct x; [contradiction|discriminate]|exact SP].
Qed.
Lemma mark_back_spec : forall x w, no_space w -> w <> [] -> x <> [] -> mark_back (x ++ " "%char :: w) = Some (x, w).
Proof.
  intros x w N W X. unfold mark_back. destruct (exists_last W) as (w0 & c & ->). assert (R : rev (x ++ " "%char :: w0 ++ [c]) = c :: (rev w0 ++ " "%char :: rev x)%list) by (rewrite rev_app_distr; cbn [rev]; rewrite rev_app_distr; cbn [rev app]; rewrite <- app_assoc; reflexivity). rewrite R. cbn [tl hd].
  unfold no_space in N. rewrite forallb_app in N. apply andb_true_iff in N. destruct N as (N & _). rewrite span_spec; [|rewrite forallb_rev; exact N|right; exists " "%char, (rev x); split; reflexivity].
  destruct (rev x) as [|a r] eqn:RX; [assert (x = []) by (rewrite <- (rev_involutive x), RX; reflexivity); contradiction|]. rewrite <- RX, rev_involutive. cbn [rev]. rewrite rev_involutive. reflexivity.
Qed.
(** The space in front of a word is the last one of those there. *)
Lemma spaces_snoc : forall sp, spaces sp -> (sp ++ [" "%char])%list = " "%char :: sp.
Proof. induction sp as [|c sp IH]; intro H; [reflexivity|]. unfold spaces in H. cbn [forallb] in H. apply andb_true_iff in H. destruct H as (E & H). apply Ascii.eqb_eq in E. subst c. cbn [app]. rewrite (IH H). reflexivity. Qed.
Lemma word_back : forall x sp w sp', x <> [] -> no_space w -> w <> [] -> spaces sp -> spaces sp' ->
  match skip_back (x ++ (" "%char :: sp) ++ w ++ sp') with Some l => mark_back l | None => None end = Some ((x ++ sp)%list, w).
Proof.
  intros x sp w sp' X N W S1 S2. rewrite app_assoc. rewrite skip_back_word; [|exact N|exact W|destruct x; [contradiction|discriminate]|exact S2]. rewrite <- (spaces_snoc _ S1). rewrite (app_assoc x), <- app_assoc. cbn [app]. apply mark_back_spec; [exact N|exact W|destruct x; [contradiction|discriminate]].
Qed.
Theorem kernel_fields_spec : forall x c sp1 soft sp2 hard sp3 u sp4, x <> [] -> c <> " "%char -> no_space soft -> soft <> [] -> no_space hard -> hard <> [] -> spaces sp1 -> spaces sp2 -> spaces sp3 ->
  kernel_fields false (((((x ++ [c]) ++ " "%char :: sp1) ++ soft) ++ " "%char :: sp2) ++ hard ++ sp3) = Some ((x ++ [c])%list, soft, hard) /\
  (no_space u -> u <> [] -> spaces sp4 ->
   kernel_fields true (((((((x ++ [c]) ++ " "%char :: sp1) ++ soft) ++ " "%char :: sp2) ++ hard) ++ " "%char :: sp3) ++ u ++ sp4) = Some ((x ++ [c])%list, soft, hard)).
Proof.
  intros x c sp1 soft sp2 hard sp3 u sp4 X C N1 W1 N2 W2 S1 S2 S3.
  assert (NE : forall (a b : cstr), a <> [] -> (a ++ b)%list <> []) by (intros [|? ?] b Q; [contradiction|discriminate]).
  assert (XC : (x ++ [c])%list <> []) by (apply NE; exact X).
  assert (P : forall units l, (if units : bool then match skip_back l with Some l => match mark_back l with Some (l, _) => Some l | None => None end | None => None end else Some l) = Some (((((x ++ [c]) ++ " "%char :: sp1) ++ soft) ++ " "%char :: sp2) ++ hard ++ sp3)%list ->
            kernel_fields units l = Some ((x ++ [c])%list, soft, hard)).
  { intros units l Q. unfold kernel_fields. rewrite Q. clear Q l units.
    pose proof (word_back (((x ++ [c]) ++ " "%char :: sp1) ++ soft)%list sp2 hard sp3 ltac:(auto) N2 W2 S2 S3) as H. rewrite app_assoc in H. destruct (skip_back _) as [l|]; [|discriminate]. rewrite H. clear H l.
    pose proof (word_back (x ++ [c])%list sp1 soft sp2 XC N1 W1 S1 S2) as H. rewrite app_assoc in H. rewrite app_assoc in H. destruct (skip_back _) as [l|]; [|discriminate]. rewrite H. clear H l.
    assert (H : skip_back ((x ++ [c]) ++ sp1) = Some (x ++ [c])%list) by (rewrite <- app_assoc; cbn [app]; apply skip_back_spec; assumption). rewrite H. reflexivity. }
  split; [apply P; reflexivity|]. intros N3 W3 S4. apply P.
  pose proof (word_back (((((x ++ [c]) ++ " "%char :: sp1) ++ soft) ++ " "%char :: sp2) ++ hard)%list sp3 u sp4 ltac:(auto 8) N3 W3 S3 S4) as H. rewrite app_assoc in H. destruct (skip_back _) as [l|]; [|discriminate]. rewrite H. rewrite <- !app_assoc. reflexivity.
Qed.

(** ** Numbers *)
Lemma dec_loop_length : forall fuel k n acc, 0 <= n < 10 ^ Z.of_nat (S k) -> (length (dec_loop fuel n acc) <= S k + length acc)%nat.
Proof.
  induction fuel as [|fuel IH]; intros k n acc B; cbn [dec_loop]; [lia|]. destruct (Z.eqb_spec (n / 10) 0) as [E|E]; [cbn [length]; lia|].
  destruct k as [|k]; [exfalso; apply E; apply Z.div_small; change (10 ^ Z.of_nat 1) with 10 in B; lia|].
  specialize (IH k (n / 10) (chr (48 + Z.to_nat (n mod 10)) :: acc)). cbn [length] in *. rewrite Nat2Z.inj_succ, Z.pow_succ_r in B by lia.
  assert (0 <= n / 10 < 10 ^ Z.of_nat (S k)) by (split; [apply Z.div_pos; lia|apply Z.div_lt_upper_bound; [lia|apply B]]). lia.
Qed.
Definition rlim (x : Z) : Prop := 0 <= x < 2 ^ 64.
Lemma show_spec : forall x, rlim x -> no_space (show x) /\ show x <> [] /\ (length (show x) <= 20)%nat /\ str2rlim_t (show x) = x /\ ~ In c_nl (show x) /\ ~ In NUL (show x).
Proof.
  intros x B. unfold show, rlim in *. destruct (Z.eqb_spec x (2 ^ 64 - 1)) as [->|N].
  - split; [reflexivity|]. split; [discriminate|]. split; [vm_compute; lia|]. split; [reflexivity|]. split; intro I; cbn in I; repeat (destruct I as [I|I]; [discriminate|]); contradiction.
  - destruct (decimal_value x (proj1 B)) as (D & V & NE).
    assert (NOT : forall c, isdigit c = false -> ~ In c (decimal x)) by (intros c H I; rewrite forallb_forall in D; rewrite (D c I) in H; discriminate).
    split; [unfold no_space; apply forallb_forall; intros c I; apply negb_true_iff, Ascii.eqb_neq; intro Q; apply (NOT " "%char); [reflexivity|rewrite Q; exact I]|]. split; [exact NE|].
    split; [unfold decimal; pose proof (dec_loop_length (S (Z.to_nat (Z.log2 x))) 19 x []) as L; cbn [length] in L; rewrite Nat.add_0_r in L; apply L; split; [apply B|]; apply (Z.lt_le_trans _ (2 ^ 64)); [apply B|vm_compute; discriminate]|].
    split; [|split; apply NOT; reflexivity].
    unfold str2rlim_t. destruct (streq (decimal x) (lit "unlimited")) eqn:E; [apply streq_eq in E; exfalso; apply (NOT "u"%char); [reflexivity|rewrite E; left; reflexivity]|].
    assert (S0 : strtoul 10 (decimal x) = (ulong false x, Some [])).
    { apply strtoul_some; [lia|]. exists false, x. split; [|reflexivity]. exists [], [], (decimal x). rewrite app_nil_r. split; [reflexivity|]. split; [reflexivity|]. split; [right; auto|]. split; [|left; reflexivity].
      assert (HV : forall c, In c (decimal x) -> hex_val c = digit_val c) by (intros c I; unfold hex_val; rewrite forallb_forall in D; rewrite (D c I); reflexivity).
      split; [exact NE|]. split; [intros c I; rewrite (HV c I); rewrite forallb_forall in D; specialize (D c I); unfold isdigit in D; apply andb_true_iff in D; destruct D as (_ & D); apply Nat.leb_le in D; unfold digit_val; lia|].
      rewrite <- V at 1. unfold value. generalize 0. revert HV. clear. induction (decimal x) as [|c ds IH]; intros HV a; [reflexivity|]. cbn [fold_left]. rewrite (HV c (or_introl eq_refl)). apply IH. intros d I. apply HV. right. exact I. }
    rewrite S0. cbn [fst]. unfold ulong. change ULONG_MAX with (2 ^ 64 - 1). lia.
Qed.

(** ** The whole text *)
Lemma repeat_spaces : forall n, spaces (repeat " "%char n).
Proof. induction n as [|n IH]; [reflexivity|exact IH]. Qed.
Lemma pad_space : forall k s r, (pad k s ++ " "%char :: r)%list = (s ++ " "%char :: repeat " "%char (k - length s) ++ r)%list.
Proof. intros k s r. unfold pad. rewrite <- app_assoc. f_equal. change (" "%char :: r) with ([" "%char] ++ r)%list. rewrite app_assoc, spaces_snoc by apply repeat_spaces. reflexivity. Qed.
Lemma pad_length : forall k s, (length s <= k)%nat -> length (pad k s) = k.
Proof. intros k s L. unfold pad. rewrite app_length, repeat_length. lia. Qed.
Lemma pad_no : forall c k s, c <> " "%char -> ~ In c s -> ~ In c (pad k s).
Proof. intros c k s N I J. unfold pad in J. apply in_app_or in J. destruct J as [J|J]; [exact (I J)|]. apply repeat_spec in J. contradiction. Qed.
(** A row of the table that can be read back. *)
Definition good_row (name : string) (unit : option string) : Prop :=
  (exists x c, lit name = (x ++ [c])%list /\ x <> [] /\ c <> " "%char) /\ (length (lit name) <= 25)%nat /\ ~ In c_nl (lit name) /\ ~ In NUL (lit name) /\
  match unit with Some u => no_space (lit u) /\ lit u <> [] /\ (length (lit u) <= 10)%nat /\ ~ In c_nl (lit u) /\ ~ In NUL (lit u) | None => True end.
Definition row_text (name : string) (unit : option string) (s h : Z) : cstr :=
  (pad 25 (lit name) ++ " "%char :: pad 20 (show s) ++ " "%char :: pad 20 (show h) ++ " "%char :: match unit with Some u => pad 10 (lit u) | None => [] end)%list.
Lemma row_line : forall name unit s h, kernel_line name unit s h = (row_text name unit s h ++ [c_nl])%list.
Proof. intros. unfold kernel_line, row_text. rewrite <- !app_assoc. cbn [app]. rewrite <- !app_assoc. cbn [app]. rewrite <- !app_assoc. reflexivity. Qed.
Lemma row_clean : forall name unit s h c, good_row name unit -> rlim s -> rlim h -> c = c_nl \/ c = NUL -> ~ In c (row_text name unit s h).
Proof.
  intros name unit s h c (_ & _ & N1 & N2 & U) S0 H0 C I. destruct (show_spec s S0) as (_ & _ & _ & _ & A1 & A2). destruct (show_spec h H0) as (_ & _ & _ & _ & B1 & B2).
  assert (CS : c <> " "%char) by (destruct C; subst c; discriminate).
  assert (PN : forall k w, ~ In c_nl w -> ~ In NUL w -> ~ In c (pad k w)) by (intros k w X Y; apply pad_no; [exact CS|destruct C; subst c; assumption]).
  unfold row_text in I. apply in_app_or in I. destruct I as [I|[I|I]]; [exact (PN _ _ N1 N2 I)|congruence|]. apply in_app_or in I. destruct I as [I|[I|I]]; [exact (PN _ _ A1 A2 I)|congruence|]. apply in_app_or in I. destruct I as [I|[I|I]]; [exact (PN _ _ B1 B2 I)|congruence|]. destruct unit as [u|]; [|destruct I]. destruct U as (_ & _ & _ & U1 & U2). exact (PN _ _ U1 U2 I).
Qed.
Lemma row_length : forall name unit s h, good_row name unit -> rlim s -> rlim h -> length (row_text name unit s h) = (match unit with Some _ => 78 | None => 68 end)%nat.
Proof.
  intros name unit s h (_ & N & _ & _ & U) S0 H0. destruct (show_spec s S0) as (_ & _ & A & _). destruct (show_spec h H0) as (_ & _ & B & _). unfold row_text. rewrite app_length. cbn [length]. rewrite app_length. cbn [length]. rewrite app_length. cbn [length]. rewrite !pad_length by assumption. destruct unit as [u|]; [rewrite pad_length by apply U|]; reflexivity.
Qed.
Lemma row_fields : forall name unit s h, good_row name unit -> rlim s -> rlim h ->
  kernel_fields (length (row_text name unit s h) =? 78)%nat (row_text name unit s h) = Some (lit name, show s, show h).
Proof.
  intros name unit s h G S0 H0. rewrite row_length by assumption. destruct G as ((x & c & E & X & C) & _ & _ & _ & U). destruct (show_spec s S0) as (A1 & A2 & _). destruct (show_spec h H0) as (B1 & B2 & _).
  unfold row_text. rewrite !pad_space. rewrite E. destruct unit as [u|].
  - change (78 =? 78)%nat with true. destruct U as (U1 & U2 & _). destruct (kernel_fields_spec x c (repeat " "%char (25 - length (x ++ [c]))) (show s) (repeat " "%char (20 - length (show s))) (show h) (repeat " "%char (20 - length (show h))) (lit u) (repeat " "%char (10 - length (lit u))) X C A1 A2 B1 B2 (repeat_spaces _) (repeat_spaces _) (repeat_spaces _)) as (_ & K).
    etransitivity; [|apply (K U1 U2 (repeat_spaces _))]. f_equal. unfold pad. repeat (first [rewrite <- app_assoc | progress cbn [app]]). reflexivity.
  - change (68 =? 78)%nat with false. destruct (kernel_fields_spec x c (repeat " "%char (25 - length (x ++ [c]))) (show s) (repeat " "%char (20 - length (show s))) (show h) (" "%char :: repeat " "%char (20 - length (show h))) [] [] X C A1 A2 B1 B2 (repeat_spaces _) (repeat_spaces _) (repeat_spaces (S (20 - length (show h))))) as (K & _).
    etransitivity; [|apply K]. f_equal. rewrite ?app_nil_r. repeat (first [rewrite <- app_assoc | progress cbn [app]]). reflexivity.
Qed.

Lemma rows_read : forall rows n k f, Forall (fun r => good_row (fst r) (snd r)) rows -> (forall m, rlim (fst (k m)) /\ rlim (snd (k m))) ->
  (forall i, (i < length rows)%nat -> str2rlimit (lit (fst (nth i rows (""%string, None)))) = Some (n + i)%nat) ->
  exists f', kernel_lines (lines_of (kernel_rows n k rows)) 78 f = f' /\
    forall m, f' m = if ((n <=? m) && (m <? n + length rows))%nat then mkLim (l_supported (f m)) 5 5 (fst (k m)) (snd (k m)) else f m.
Proof.
  induction rows as [|[name unit] rows IH]; intros n k f G R IX; cbn [kernel_rows]; [exists f; split; [reflexivity|]; intro m; cbn [length]; destruct (Nat.leb_spec n m); destruct (Nat.ltb_spec m (n + 0)); cbn [andb]; (reflexivity || lia)|].
  inversion G as [|? ? G1 G2]; subst. cbn [fst snd] in G1. destruct (R n) as (R1 & R2). rewrite row_line.
  assert (NL : ~ In c_nl (row_text name unit (fst (k n)) (snd (k n)))) by (apply row_clean; auto). assert (NN : ~ In NUL (row_text name unit (fst (k n)) (snd (k n)))) by (apply row_clean; auto).
  rewrite lines_of_app by (eexists; split; [reflexivity|exact NL]). cbn [kernel_lines]. rewrite cut_id by (intro I; apply in_app_or in I; destruct I as [I|[I|[]]]; [exact (NN I)|discriminate]).
  set (t := row_text name unit (fst (k n)) (snd (k n))) in *. pose proof (row_length _ _ _ _ G1 R1 R2) as L. fold t in L.
  assert (LL : (length (t ++ [c_nl]) <? 2)%nat = false) by (apply Nat.ltb_ge; rewrite app_length, L; cbn [length]; destruct unit; lia). rewrite LL.
  assert (LC : last_char (t ++ [c_nl]) = c_nl) by (unfold last_char; apply last_last). rewrite LC, Ascii.eqb_refl. rewrite removelast_last. change (78 =? 0)%nat with false. cbn [andb]. unfold t at 1 2. rewrite (row_fields _ _ _ _ G1 R1 R2).
  pose proof (IX 0%nat ltac:(cbn [length]; lia)) as I0. cbn [nth fst] in I0. rewrite Nat.add_0_r in I0. rewrite I0.
  destruct (IH (S n) k (put_kernel n (show (fst (k n))) (show (snd (k n))) f) G2 R) as (f' & E & F').
  { intros i B. specialize (IX (S i) ltac:(cbn [length]; lia)). cbn [nth] in IX. rewrite IX. f_equal. lia. }
  exists f'. split; [exact E|]. intro m. rewrite F'. cbn [length]. unfold put_kernel. destruct (show_spec _ R1) as (_ & _ & _ & V1 & _). destruct (show_spec _ R2) as (_ & _ & _ & V2 & _). rewrite V1, V2.
  destruct (Nat.eqb_spec m n) as [->|D].
  - destruct (Nat.leb_spec (S n) n); [lia|]. destruct (Nat.leb_spec n n); [|lia]. destruct (Nat.ltb_spec n (n + S (length rows))); [|lia]. reflexivity.
  - destruct (Nat.leb_spec (S n) m); destruct (Nat.leb_spec n m); try lia; cbn [andb]; [|reflexivity]. destruct (Nat.ltb_spec m (S n + length rows)); destruct (Nat.ltb_spec m (n + S (length rows))); try lia; reflexivity.
Qed.
Lemma kernel_good : Forall (fun r => good_row (fst r) (snd r)) KERNEL.
Proof.
  assert (CK : forall name unit, (length (lit name) <=? 25)%nat && forallb (fun c => negb (Ascii.eqb c c_nl) && negb (Ascii.eqb c NUL)) (lit name) && negb (Ascii.eqb (last (lit name) " "%char) " "%char) && (2 <=? length (lit name))%nat &&
     match unit with Some u => forallb (fun c => negb (Ascii.eqb " "%char c) && negb (Ascii.eqb c c_nl) && negb (Ascii.eqb c NUL)) (lit u) && (1 <=? length (lit u))%nat && (length (lit u) <=? 10)%nat | None => true end = true -> good_row name unit).
  { intros name unit H. rewrite !andb_true_iff in H. destruct H as ((((H1 & H2) & H3) & H4) & H5). apply Nat.leb_le in H1, H4. apply negb_true_iff, Ascii.eqb_neq in H3. rewrite forallb_forall in H2.
    split; [|split; [exact H1|split; [intro I; specialize (H2 _ I); discriminate|split; [intro I; specialize (H2 _ I); discriminate|]]]].
    - assert (NE : lit name <> []) by (intro Q; rewrite Q in H4; cbn in H4; lia). destruct (exists_last NE) as (x & c & E). exists x, c. split; [exact E|]. rewrite E in H3, H4. rewrite last_last in H3. split; [|exact H3]. intros ->. cbn in H4. lia.
    - destruct unit as [u|]; [|exact I]. rewrite !andb_true_iff in H5. destruct H5 as ((U & U1) & U2). apply Nat.leb_le in U1, U2. rewrite forallb_forall in U. split; [unfold no_space; apply forallb_forall; intros c J; specialize (U c J); rewrite !andb_true_iff in U; apply U|]. split; [intro Q; rewrite Q in U1; cbn in U1; lia|]. split; [exact U2|]. split; intro J; specialize (U _ J); discriminate. }
  unfold KERNEL. repeat (constructor; [apply CK; reflexivity|]). constructor.
Qed.
(** C87: what the kernel writes is read back: the limits become those of the kernel, marked as such. *)
Theorem kernel_limits_read : forall k f, (forall m, rlim (fst (k m)) /\ rlim (snd (k m))) ->
  forall n, parse_kernel_limits (Some (kernel_text k)) f n = if (n <? 16)%nat then mkLim (l_supported (f n)) 5 5 (fst (k n)) (snd (k n)) else f n.
Proof.
  intros k f R n. cbn [parse_kernel_limits]. unfold kernel_text.
  assert (H : exists t, heading = (t ++ [c_nl])%list /\ ~ In c_nl t /\ ~ In NUL t /\ length t = 78%nat /\ is_prefix (lit "Limit") t = true).
  { exists (pad 25 (lit "Limit") ++ " "%char :: pad 20 (lit "Soft Limit") ++ " "%char :: pad 20 (lit "Hard Limit") ++ " "%char :: pad 10 (lit "Units"))%list. split; [reflexivity|]. split; [|split; [|split; reflexivity]]; vm_compute; intro I; repeat (destruct I as [I|I]; [discriminate|]); contradiction. }
  destruct H as (t & -> & N1 & N2 & L & PF). rewrite lines_of_app by (exists t; auto). cbn [kernel_lines]. rewrite cut_id by (intro I; apply in_app_or in I; destruct I as [I|[I|[]]]; [exact (N2 I)|discriminate]).
  assert (LL : (length (t ++ [c_nl]) <? 2)%nat = false) by (apply Nat.ltb_ge; rewrite app_length, L; cbn [length]; lia). rewrite LL.
  assert (LC : last_char (t ++ [c_nl]) = c_nl) by (unfold last_char; apply last_last). rewrite LC, Ascii.eqb_refl, removelast_last, PF, L. change ((0 =? 0)%nat && true) with true. cbv iota.
  destruct (rows_read KERNEL 0 k f kernel_good R) as (f' & -> & F').
  { intros i B. do 16 (destruct i as [|i]; [reflexivity|]). cbn [KERNEL length] in B. lia. }
  rewrite F'. reflexivity.
Qed.
Example kernel_limits_read_ex : let k := fun m => (Z.of_nat m mod 16, 2 ^ 64 - 1) in
  (forall m, rlim (fst (k m)) /\ rlim (snd (k m))) /\ (length (kernel_text k) = 1323)%nat /\
  firstn 79 (skipn (79 * 8) (kernel_text k)) = (lit "Max open files            7                    unlimited            files     " ++ [c_nl])%list.
Proof. split; [intro m; cbn [fst snd]; unfold rlim; pose proof (Z.mod_pos_bound (Z.of_nat m) 16 ltac:(lia)); lia|]. split; reflexivity. Qed.
Print Assumptions kernel_limits_read.
