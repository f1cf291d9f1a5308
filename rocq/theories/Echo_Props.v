(** Theorems about pam_echo. *)
From Coq Require Import String Ascii List Arith ZArith Bool Lia.
From Verif Require Import Base Str_Model Str_Facts Opt_Model Opt_Facts Item_Model Echo_Model.
Import ListNotations.

(** ** What a message means *)
(** The escapes for items, and the number of the item. *)
Inductive item_letter : ascii -> Z -> Prop :=
| il_rhost : item_letter "H"%char 4 | il_service : item_letter "s"%char 1 | il_tty : item_letter "t"%char 3 | il_ruser : item_letter "U"%char 8 | il_user : item_letter "u"%char 2.
(** The text of an escape. *)
Inductive means (E : env) : ascii -> cstr -> Prop :=
| m_item : forall k i v, item_letter k i -> e_item E i = (PAM_SUCCESS, Some v) -> means E k v
| m_no_item : forall k i, item_letter k i -> (forall v, e_item E i <> (PAM_SUCCESS, Some v)) -> means E k (lit "(null)")
| m_host : forall v, e_host E = Some v -> means E "h"%char v
| m_no_host : e_host E = None -> means E "h"%char (lit "(null)")
| m_other : forall k, (forall i, ~ item_letter k i) -> k <> "h"%char -> means E k [k].
(** The whole message with the escapes replaced. *)
Inductive expanded (E : env) : cstr -> cstr -> Prop :=
| ex_nil : expanded E [] []
| ex_end : expanded E ["%"%char] ["%"%char]
| ex_char : forall c s o, c <> "%"%char -> expanded E s o -> expanded E (c :: s) (c :: o)
| ex_escape : forall k v s o, means E k v -> expanded E s o -> expanded E ("%"%char :: k :: s) (v ++ o).
(** The arguments with a space between them. *)
Inductive joined : list cstr -> cstr -> Prop :=
| j_nil : joined [] []
| j_one : forall a, joined [a] a
| j_more : forall a args t, joined args t -> args <> [] -> joined (a :: args) (a ++ " "%char :: t).
(** The value of the last file= option. *)
Definition last_file (args : list cstr) (v : cstr) : Prop := exists a b, args = (a ++ (lit "file=" ++ v) :: b)%list /\ forall w, ~ In (lit "file=" ++ w)%list b.
(** The text comes from the arguments. *)
Definition from_args (args : list cstr) : Prop := last_file args [] \/ forall v, ~ In (lit "file=" ++ v)%list args.
(** The contents of a file as a message. *)
Definition contents (t : list ascii) (m : cstr) : Prop := (exists b, t = (b ++ [c_nl])%list /\ m = cut b) \/ ((forall b, t <> (b ++ [c_nl])%list) /\ m = cut t).
(** The message [m] is shown: its expansion, of which at most 511 bytes more than in the message. *)
Definition shown (E : env) (m : cstr) (r : Z) (out : option cstr) : Prop :=
  (e_out E = false /\ r = PAM_BUF_ERR /\ out = None) \/
  (e_out E = true /\ r = PAM_SUCCESS /\ exists o, expanded E m o /\ out = Some (firstn (length m + 511) o)).

Lemma escape_means : forall E k, means E k (match escape E k with Some v => v | None => [k] end) /\ forall v, means E k v -> v = match escape E k with Some v => v | None => [k] end.
Proof.
  intros E k.
  assert (Hi : forall i, item_letter k i -> let v := match (let '(r, v) := e_item E i in if (r =? PAM_SUCCESS)%Z then v else None) with Some v => v | None => lit "(null)" end in
    k <> "h"%char -> means E k v /\ forall w, means E k w -> w = v).
  { intros i Hi v Hh.
    assert (U : forall j, item_letter k j -> j = i) by (intros j Hj; destruct Hi; inversion Hj; reflexivity).
    assert (Q : (exists x, e_item E i = (PAM_SUCCESS, Some x) /\ v = x) \/ ((forall x, e_item E i <> (PAM_SUCCESS, Some x)) /\ v = lit "(null)")).
    { subst v. destruct (e_item E i) as [r [x|]]; cbn iota; destruct (Z.eqb_spec r PAM_SUCCESS) as [->|R]; [left; exists x; auto|right..]; split; try reflexivity; intros y Y; congruence. }
    split.
    - destruct Q as [(x & A & ->)|(A & ->)]; [apply (m_item E k i); assumption|apply (m_no_item E k i); assumption].
    - intros w W. inversion W as [k' j x J B|k' j J B|x B|B|k' N Nh]; subst; try congruence.
      + rewrite (U j J) in B. destruct Q as [(y & A & ->)|(A & ->)]; [congruence|exfalso; apply (A w); exact B].
      + rewrite (U j J) in B. destruct Q as [(y & A & ->)|(A & ->)]; [exfalso; apply (B y); exact A|reflexivity].
      + exfalso. apply (N i Hi). }
  unfold escape.
  destruct (Ascii.eqb_spec k "H"%char) as [->|N1]; [apply (Hi 4%Z il_rhost); discriminate|].
  destruct (Ascii.eqb_spec k "h"%char) as [->|N2].
  { split.
    - destruct (e_host E) eqn:Q; [apply m_host; exact Q|apply m_no_host; exact Q].
    - intros w W. inversion W as [k' j x J B|k' j J B|x B|B|k' N Nh]; subst; try (inversion J); try congruence; rewrite B; reflexivity. }
  destruct (Ascii.eqb_spec k "s"%char) as [->|N3]; [apply (Hi 1%Z il_service); discriminate|].
  destruct (Ascii.eqb_spec k "t"%char) as [->|N4]; [apply (Hi 3%Z il_tty); discriminate|].
  destruct (Ascii.eqb_spec k "U"%char) as [->|N5]; [apply (Hi 8%Z il_ruser); discriminate|].
  destruct (Ascii.eqb_spec k "u"%char) as [->|N6]; [apply (Hi 2%Z il_user); discriminate|].
  assert (N : forall i, ~ item_letter k i) by (intros i J; inversion J; congruence).
  split; [apply m_other; assumption|]. intros w W. inversion W as [k' j x J B|k' j J B|x B|B|k' N' Nh]; subst; try congruence; exfalso; apply (N j J).
Qed.

(** ** The buffers *)
Lemma firstn_short : forall (A : Type) n (a b : list A), n <= length a -> firstn n (a ++ b) = firstn n a.
Proof. intros A n a b H. rewrite firstn_app. replace (n - length a) with 0 by lia. apply app_nil_r. Qed.
Lemma copy_ok : forall size s b, 0 < size -> length b <= size - 1 -> copy size s b = Ok (firstn (size - 1) (b ++ s)).
Proof.
  intros size s. induction s as [|c s IH]; intros b P L; cbn [copy].
  - rewrite app_nil_r, firstn_all2 by exact L. reflexivity.
  - destruct (Nat.ltb_spec (length b) (size - 1)) as [H|H].
    + unfold store. destruct (Nat.ltb_spec (length b) size); [|lia]. cbn [bind]. rewrite IH by (try rewrite app_length; cbn [length]; lia). rewrite <- app_assoc. reflexivity.
    + rewrite firstn_short by lia. rewrite firstn_all2 by lia. reflexivity.
Qed.
Lemma copied : forall size (v b o : list ascii), 0 < size -> length b <= size - 1 -> firstn (size - 1) (firstn (size - 1) (b ++ v) ++ o) = firstn (size - 1) ((b ++ v) ++ o).
Proof.
  intros size v b o P L. destruct (Nat.le_gt_cases (length (b ++ v)) (size - 1)) as [H|H].
  - rewrite (firstn_all2 (b ++ v)) by exact H. reflexivity.
  - rewrite (firstn_short _ _ (firstn (size - 1) (b ++ v)) o), (firstn_short _ _ (b ++ v) o), firstn_firstn, Nat.min_id; [reflexivity|lia|rewrite firstn_length; lia].
Qed.
Lemma copy_len : forall size (v b : list ascii), length (firstn (size - 1) (b ++ v)) <= size - 1.
Proof. intros. rewrite firstn_length. lia. Qed.
Lemma replace_ok : forall E size, 0 < size -> forall p o, expanded E p o -> forall b, length b <= size - 1 -> replace E size p b = Ok (firstn (size - 1) (b ++ o)).
Proof.
  intros E size P p o X. induction X as [| |c s o C X IH|k v s o M X IH]; intros b L; cbn [replace].
  - rewrite app_nil_r, firstn_all2 by exact L. reflexivity.
  - destruct (Nat.ltb_spec (length b) (size - 1)) as [H|H]; [|rewrite firstn_short, firstn_all2 by lia; reflexivity].
    rewrite Ascii.eqb_refl. cbn [negb]. unfold store. destruct (Nat.ltb_spec (length b) size); [|lia]. cbn [bind replace]. rewrite firstn_all2 by (rewrite app_length; cbn [length]; lia). reflexivity.
  - destruct (Nat.ltb_spec (length b) (size - 1)) as [H|H]; [|rewrite firstn_short, firstn_all2 by lia; reflexivity].
    apply Ascii.eqb_neq in C. rewrite C. cbn [negb]. unfold store. destruct (Nat.ltb_spec (length b) size); [|lia]. cbn [bind]. rewrite IH by (rewrite app_length; cbn [length]; lia). rewrite <- app_assoc. reflexivity.
  - destruct (Nat.ltb_spec (length b) (size - 1)) as [H|H]; [|rewrite firstn_short, firstn_all2 by lia; reflexivity].
    rewrite Ascii.eqb_refl. cbn [negb]. destruct (escape_means E k) as (_ & U). apply U in M. destruct (escape E k) as [v'|]; subst v.
    + rewrite copy_ok by lia. cbn [bind]. rewrite IH by apply copy_len. rewrite copied by lia. rewrite <- app_assoc. reflexivity.
    + unfold store. destruct (Nat.ltb_spec (length b) size); [|lia]. cbn [bind]. rewrite IH by (rewrite app_length; cbn [length]; lia). rewrite <- app_assoc. reflexivity.
Qed.
Lemma expanded_total : forall E p, exists o, expanded E p o.
Proof.
  intros E p. remember (length p) as n eqn:N. revert p N. induction n as [n IH] using lt_wf_ind. intros [|c p] N; [exists []; constructor|].
  destruct (Ascii.ascii_dec c "%"%char) as [->|C].
  - destruct p as [|k p]; [exists ["%"%char]; constructor|]. destruct (IH (length p)) with (p := p) as (o & X); [cbn [length] in N; lia|reflexivity|].
    eexists. apply ex_escape; [apply (proj1 (escape_means E k))|exact X].
  - destruct (IH (length p)) with (p := p) as (o & X); [cbn [length] in N; lia|reflexivity|]. exists (c :: o). constructor; assumption.
Qed.
Lemma expanded_unique : forall E p o, expanded E p o -> forall o', expanded E p o' -> o' = o.
Proof.
  intros E p o X. induction X as [| |c s o C X IH|k v s o M X IH]; intros o' Y; inversion Y as [| |c' s' y C' Y'|k' v' s' y M' Y']; subst; try congruence.
  - f_equal. apply IH. exact Y'.
  - destruct (escape_means E k) as (_ & U). apply U in M. apply U in M'. rewrite (IH y Y'). congruence.
Qed.
Lemma print_shown : forall E m r out, replace_and_print E m = Ok (r, out) <-> shown E m r out.
Proof.
  intros E m r out. unfold replace_and_print, shown. destruct (e_out E); cbn [negb].
  - destruct (expanded_total E m) as (o & X). rewrite (replace_ok E (length m + 512) ltac:(lia) m o X []) by (cbn [length]; lia). cbn [bind app]. unfold store.
    rewrite firstn_length. destruct (Nat.ltb_spec (Nat.min (length m + 512 - 1) (length o)) (length m + 512)); [|lia]. cbn [bind].
    replace (length m + 512 - 1) with (length m + 511) by lia. split.
    + intro Q. injection Q as <- <-. right. repeat split. exists o. split; [exact X|reflexivity].
    + intros [(Q & _)|(_ & -> & o' & X' & ->)]; [discriminate|]. rewrite (expanded_unique E m o X o' X'). reflexivity.
  - split; [intro Q; injection Q as <- <-; left; auto|]. intros [(_ & -> & ->)|(Q & _)]; [reflexivity|discriminate].
Qed.
Lemma print_total : forall E m, exists r out, replace_and_print E m = Ok (r, out).
Proof.
  intros E m. destruct (e_out E) eqn:O.
  - destruct (expanded_total E m) as (o & X). exists PAM_SUCCESS, (Some (firstn (length m + 511) o)). apply print_shown. right. repeat split; [exact O|]. exists o. auto.
  - exists PAM_BUF_ERR, None. apply print_shown. left. auto.
Qed.

(** Not the first word: a space comes before it. *)
Definition spaced (args : list cstr) : cstr := concat (map (fun a => " "%char :: a) args).
Lemma joined_spaced : forall a args t, joined (a :: args) t <-> t = (a ++ spaced args)%list.
Proof.
  intros a args. revert a. induction args as [|b args IH]; intros a t.
  - unfold spaced. cbn [map concat]. rewrite app_nil_r. split; [intro J; inversion J; [reflexivity|congruence]|intros ->; constructor].
  - split.
    + intro J. inversion J as [|?|? ? t' J' N]; subst. apply IH in J'. subst t'. reflexivity.
    + intros ->. unfold spaced. cbn [map concat app]. apply j_more; [|discriminate]. apply IH. reflexivity.
Qed.
Lemma join_rest : forall args b, length b <= 511 -> join false args b = Ok (firstn 511 (b ++ spaced args)).
Proof.
  induction args as [|a args IH]; intros b L; cbn [join].
  - unfold spaced. cbn [map concat]. rewrite app_nil_r, firstn_all2 by exact L. reflexivity.
  - destruct (Nat.ltb_spec (length b) 511) as [H|H]; [|rewrite firstn_short, firstn_all2 by lia; reflexivity].
    unfold store at 1. destruct (Nat.ltb_spec (length b) 512); [|lia]. cbn [bind]. rewrite copy_ok by (try rewrite app_length; cbn [length]; lia). cbn [bind].
    rewrite IH by apply (copy_len 512). rewrite (copied 512) by (try rewrite app_length; cbn [length]; lia). unfold spaced. cbn [map concat]. rewrite <- !app_assoc. reflexivity.
Qed.
Lemma join_ok : forall args t, joined args t -> join true args [] = Ok (firstn 511 t).
Proof.
  intros [|a args] t J.
  - inversion J. reflexivity.
  - apply joined_spaced in J. subst t. cbn [join]. destruct (Nat.ltb_spec (length (@nil ascii)) 511); [|cbn [length] in *; lia]. cbn [bind].
    rewrite copy_ok by (cbn [length]; lia). cbn [bind]. rewrite join_rest by apply (copy_len 512). rewrite (copied 512) by (cbn [length]; lia). reflexivity.
Qed.
Lemma joined_total : forall args, exists t, joined args t.
Proof. intros [|a args]; [exists []; constructor|]. exists (a ++ spaced args)%list. apply joined_spaced. reflexivity. Qed.
Lemma joined_unique : forall args t t', joined args t -> joined args t' -> t = t'.
Proof. intros [|a args] t t' J J'; [inversion J; inversion J'; reflexivity|]. apply joined_spaced in J. apply joined_spaced in J'. congruence. Qed.

(** ** The options *)
Lemma file_fold : forall args, (exists v, fold_left file_arg args None = Some v /\ last_file args v) \/ (fold_left file_arg args None = None /\ forall v, ~ In (lit "file=" ++ v)%list args).
Proof.
  intro args. induction args as [|a args IH] using rev_ind; [right; split; [reflexivity|intros v []]|].
  rewrite fold_left_app. cbn [fold_left]. unfold file_arg at 1 3. destruct (skip_prefix (lit "file=") a) as [v|] eqn:Q.
  - apply skip_prefix_some in Q. subst a. left. exists v. split; [reflexivity|]. exists args, []. split; [reflexivity|intros w []].
  - pose proof (proj1 (skip_prefix_none _ _) Q) as N. destruct IH as [(v & F & x & b & -> & H)|(F & H)].
    + left. exists v. split; [exact F|]. exists x, (b ++ [a])%list. split; [rewrite <- app_assoc; reflexivity|]. intros w I. apply in_app_iff in I. destruct I as [I|[I|[]]]; [apply (H w I)|apply N; exists w; exact I].
    + right. split; [exact F|]. intros w I. apply in_app_iff in I. destruct I as [I|[I|[]]]; [apply (H w I)|apply N; exists w; exact I].
Qed.
Lemma last_file_unique : forall args v v', last_file args v -> last_file args v' -> v = v'.
Proof.
  intros args v v' (a & b & -> & N) (a' & b' & X & N'). revert a' X. induction a as [|c a IH]; intros [|c' a'] X; cbn [app] in X.
  - injection X as X _. exact X.
  - injection X as X Y. exfalso. apply (N v'). rewrite Y. apply in_app_iff. right. left. reflexivity.
  - injection X as X Y. exfalso. apply (N' v). rewrite <- Y. apply in_app_iff. right. left. reflexivity.
  - injection X as _ X. apply (IH a' X).
Qed.
Lemma last_file_in : forall args v, last_file args v -> In (lit "file=" ++ v)%list args.
Proof. intros args v (a & b & -> & _). apply in_app_iff. right. left. reflexivity. Qed.
Lemma contents_unique : forall t, contents t (cut (if Ascii.eqb (last t NUL) c_nl then removelast t else t)) /\ forall m, contents t m -> m = cut (if Ascii.eqb (last t NUL) c_nl then removelast t else t).
Proof.
  intro t. destruct t as [|c t] using rev_ind.
  - split; [right; split; [intros b Q; destruct b; discriminate Q|reflexivity]|]. intros m [(b & Q & _)|(_ & ->)]; [destruct b; discriminate Q|reflexivity].
  - rewrite last_last, removelast_last. destruct (Ascii.eqb_spec c c_nl) as [->|C].
    + split; [left; exists t; auto|]. intros m [(b & Q & ->)|(N & _)]; [apply app_inj_tail in Q; destruct Q as (-> & _); reflexivity|exfalso; apply (N t); reflexivity].
    + split; [right; split; [intros b Q; apply app_inj_tail in Q; destruct Q; contradiction|reflexivity]|]. intros m [(b & Q & _)|(_ & ->)]; [apply app_inj_tail in Q; destruct Q; contradiction|reflexivity].
Qed.

(** ** Theorems *)
(** Without a file the arguments are shown, the first 511 bytes of them, with the escapes replaced. *)
Theorem echo_arguments : forall E args r out, from_args args ->
  (echo E false args = Ok (r, out) <-> exists t, joined args t /\ shown E (firstn 511 t) r out).
Proof.
  intros E args r out F. unfold echo.
  assert (X : echo E false args = bind (join true args []) (fun b => bind (store 512 b NUL) (fun _ => replace_and_print E b))).
  { unfold echo. destruct (file_fold args) as [(v & Fo & L)|(Fo & N)]; rewrite Fo; [|reflexivity]. destruct F as [F|F]; [|exfalso; apply (F v); apply last_file_in; exact L]. rewrite (last_file_unique args v [] L F). reflexivity. }
  unfold echo in X. rewrite X. destruct (joined_total args) as (t & J). rewrite (join_ok args t J). cbn [bind]. unfold store.
  destruct (Nat.ltb_spec (length (firstn 511 t)) 512) as [H|H]; [|rewrite firstn_length in H; lia]. cbn [bind]. rewrite print_shown.
  split; [intro S1; exists t; auto|]. intros (t' & J' & S1). rewrite (joined_unique args t t' J J'). exact S1.
Qed.

(** With file= and a value, the contents of the file are shown with the escapes replaced; a missing, empty or unreadable one is ignored. *)
Theorem echo_file : forall E args f r out, last_file args f -> f <> [] ->
  (echo E false args = Ok (r, out) <->
   (exists n t m, e_file E f = File n (Some t) /\ (0 < n <= 2147483647)%Z /\ Z.of_nat (length t) = n /\ e_alloc E = true /\ contents t m /\ shown E m r out) \/
   (out = None /\ r = PAM_BUF_ERR /\ exists n t, e_file E f = File n t /\ n <> 0%Z /\ ((n < 0 \/ 2147483647 < n)%Z \/ e_alloc E = false)) \/
   (out = None /\ r = PAM_IGNORE /\ (e_file E f = NoFile \/ e_file E f = NoStat \/ (exists t, e_file E f = File 0 t) \/
      exists n t, e_file E f = File n t /\ (0 < n <= 2147483647)%Z /\ e_alloc E = true /\ forall b, t = Some b -> Z.of_nat (length b) <> n))).
Proof.
  intros E args f r out L Nf. unfold echo. destruct (file_fold args) as [(v & Fo & L')|(Fo & N)]; [|exfalso; apply (N f); apply last_file_in; exact L].
  rewrite Fo, (last_file_unique args v f L' L). destruct f as [|c f]; [congruence|]. cbv iota beta. clear v Fo L L' args. set (F := c :: f) in *. clearbody F. clear Nf c f.
  assert (Ig : forall (P : Prop), P -> (Ok (PAM_IGNORE, None) = Ok (r, out) <-> (out = None /\ r = PAM_IGNORE /\ P))) by (intros P p; split; [intro Q; injection Q as <- <-; auto|intros (-> & -> & _); reflexivity]).
  assert (Bu : forall (P : Prop), P -> (Ok (PAM_BUF_ERR, None) = Ok (r, out) <-> (out = None /\ r = PAM_BUF_ERR /\ P))) by (intros P p; split; [intro Q; injection Q as <- <-; auto|intros (-> & -> & _); reflexivity]).
  destruct (e_file E F) as [| |n t].
  1, 2: split; [intro Q; injection Q as <- <-; right; right; auto|intros [(n & t & m & Q & _)|[(_ & _ & n & t & Q & _)|(-> & -> & _)]]; [discriminate|discriminate|reflexivity]].
  destruct (Z.eqb_spec n 0) as [->|N0].
  { split; [intro Q; injection Q as <- <-; right; right; repeat split; right; right; left; exists t; reflexivity|]. intros [(n & t' & m & Q & R & _)|[(_ & _ & n & t' & Q & R & _)|(-> & -> & _)]]; [injection Q; intros; lia|congruence|reflexivity]. }
  destruct (Z.ltb_spec n 0) as [Neg|Pos]; cbn [orb].
  { split; [intro Q; injection Q as <- <-; right; left; repeat split; exists n, t; auto|]. intros [(n' & t' & m & Q & R & _)|[(-> & -> & _)|(_ & _ & [Q|[Q|[(t' & Q)|(n' & t' & Q & R & _)]]])]]; try discriminate; try reflexivity; injection Q; intros; lia. }
  destruct (Z.ltb_spec INT_MAX n) as [Big|Small]; unfold INT_MAX in *.
  { split; [intro Q; injection Q as <- <-; right; left; repeat split; exists n, t; auto|]. intros [(n' & t' & m & Q & R & _)|[(-> & -> & _)|(_ & _ & [Q|[Q|[(t' & Q)|(n' & t' & Q & R & _)]]])]]; try discriminate; try reflexivity; injection Q; intros; lia. }
  destruct (e_alloc E) eqn:Al; cbn [negb].
  2: { split; [intro Q; injection Q as <- <-; right; left; repeat split; exists n, t; auto|]. intros [(n' & t' & m & Q & R & _ & A & _)|[(-> & -> & _)|(_ & _ & [Q|[Q|[(t' & Q)|(n' & t' & Q & R & A & _)]]])]]; try discriminate; try reflexivity; injection Q; intros; lia. }
  assert (NoBuf : ~ exists n' t', File n t = File n' t' /\ n' <> 0%Z /\ ((n' < 0 \/ 2147483647 < n')%Z \/ true = false)).
  { intros (n' & t' & Q & _ & [R|R]); [injection Q; intros; lia|discriminate]. }
  destruct t as [t|].
  - destruct (Z.eqb_spec (Z.of_nat (length t)) n) as [Ln|Ln].
    + rewrite print_shown. destruct (contents_unique t) as (C & U). split.
      * intro S1. left. exists n, t. eexists. repeat split; try eassumption; lia.
      * intros [(n' & t' & m & Q & _ & _ & _ & C' & S1)|[(_ & _ & B)|(_ & _ & [Q|[Q|[(t' & Q)|(n' & t' & Q & _ & _ & R)]]])]]; try discriminate; try contradiction.
        -- injection Q as <- <-. rewrite <- (U m C'). exact S1.
        -- injection Q as -> _. congruence.
        -- injection Q as <- <-. exfalso. apply (R t eq_refl). exact Ln.
    + split; [intro Q; injection Q as <- <-; right; right; repeat split; right; right; right; exists n, (Some t); repeat split; try lia; intros b Q; injection Q as <-; exact Ln|].
      intros [(n' & t' & m & Q & _ & R & _)|[(_ & _ & B)|(-> & -> & _)]]; [injection Q as <- <-; contradiction|contradiction|reflexivity].
  - split; [intro Q; injection Q as <- <-; right; right; repeat split; right; right; right; exists n, None; repeat split; try lia; discriminate|].
    intros [(n' & t' & m & Q & _)|[(_ & _ & B)|(-> & -> & _)]]; [discriminate|contradiction|reflexivity].
Qed.

(** No buffer is ever written outside its bounds, and a message is only shown by the services that do so and if it is wanted. *)
Theorem echo_defined : forall E sv prelim silent args, exists r out, run E sv prelim silent args = Ok (r, out) /\
  (silent = true \/ sv = Setcred \/ sv = Close \/ (sv = Chauthtok /\ prelim = false) -> r = PAM_IGNORE /\ out = None) /\ (out <> None -> r = PAM_SUCCESS).
Proof.
  intros E sv prelim silent args.
  assert (X : exists r out, echo E silent args = Ok (r, out) /\ (silent = true -> r = PAM_IGNORE /\ out = None) /\ (out <> None -> r = PAM_SUCCESS)).
  { destruct silent; [exists PAM_IGNORE, None; repeat split; congruence|].
    assert (Sh : forall m r out, shown E m r out -> out <> None -> r = PAM_SUCCESS) by (intros m r out [(_ & _ & ->)|(_ & R & _)] N; [congruence|exact R]).
    unfold echo. destruct (joined_total args) as (t & J). rewrite (join_ok args t J). cbn [bind].
    assert (St : store 512 (firstn 511 t) NUL = Ok (firstn 511 t ++ [NUL])%list) by (unfold store; destruct (Nat.ltb_spec (length (firstn 511 t)) 512) as [H|H]; [reflexivity|rewrite firstn_length in H; lia]). rewrite St. cbn [bind].
    assert (P : forall m, exists r out, replace_and_print E m = Ok (r, out) /\ (false = true -> r = PAM_IGNORE /\ out = None) /\ (out <> None -> r = PAM_SUCCESS)).
    { intro m. destruct (print_total E m) as (r & out & P). exists r, out. split; [exact P|]. split; [discriminate|]. apply print_shown in P. apply (Sh m r out P). }
    assert (I : forall r, exists r' out, Ok (r, @None cstr) = Ok (r', out) /\ (false = true -> r' = PAM_IGNORE /\ out = None) /\ (out <> None -> r' = PAM_SUCCESS)) by (intro r; exists r, None; repeat split; congruence).
    destruct (fold_left file_arg args None) as [[|c f]|]; [apply P| |apply P]. destruct (e_file E (c :: f)) as [| |n b]; [apply I|apply I|].
    destruct (n =? 0)%Z; [apply I|]. destruct ((n <? 0)%Z || (INT_MAX <? n)%Z); [apply I|]. destruct (negb (e_alloc E)); [apply I|]. destruct b as [b|]; [|apply I]. destruct (Z.of_nat (length b) =? n)%Z; [apply P|apply I]. }
  destruct X as (r & out & X & S1 & O). destruct sv; cbn [run].
  4: destruct prelim.
  all: try (exists PAM_IGNORE, None; repeat split; congruence).
  all: exists r, out; split; [exact X|]; split; [|exact O]; intros [H|[H|[H|(H & H')]]]; try congruence; apply S1; exact H.
Qed.

(** An empty file= does not only fall back to the arguments, it is shown among them. *)
Theorem echo_empty_file_refuted : exists E args, from_args args /\ echo E false args = Ok (PAM_SUCCESS, Some (lit "file= hello")).
Proof.
  exists (mkEnv (fun _ => (PAM_SUCCESS, None)) None (fun _ => NoFile) true true), [lit "file="; lit "hello"]. split.
  - left. exists [], [lit "hello"]. split; [reflexivity|]. intros w [X|[]]. discriminate X.
  - vm_compute. reflexivity.
Qed.

Definition ex_env : env := mkEnv (fun i => if (i =? 2)%Z then (PAM_SUCCESS, Some (lit "joe")) else (PAM_SUCCESS, None)) (Some (lit "box")) (fun f => if streq f (lit "/f") then File 9 (Some (lit "100%% %t" ++ [c_nl])%list) else NoFile) true true.
Example echo_arguments_example : from_args [lit "Hi"; lit "%u@%h:"; lit "50%"] /\ joined [lit "Hi"; lit "%u@%h:"; lit "50%"] (lit "Hi %u@%h: 50%") /\
  echo ex_env false [lit "Hi"; lit "%u@%h:"; lit "50%"] = Ok (PAM_SUCCESS, Some (lit "Hi joe@box: 50%")).
Proof.
  split; [|split; [|vm_compute; reflexivity]].
  - right. intros v [X|[X|[X|[]]]]; discriminate X.
  - apply joined_spaced. reflexivity.
Qed.
Example echo_file_example : last_file [lit "file=/g"; lit "file=/f"] (lit "/f") /\ echo ex_env false [lit "file=/g"; lit "file=/f"] = Ok (PAM_SUCCESS, Some (lit "100% (null)")).
Proof. split; [exists [lit "file=/g"], []; split; [reflexivity|intros w []]|vm_compute; reflexivity]. Qed.
Example echo_long_example : exists o, echo ex_env false [repeat "x"%char 600] = Ok (PAM_SUCCESS, Some o) /\ length o = 511.
Proof. eexists. split; [vm_compute; reflexivity|reflexivity]. Qed.
Example echo_defined_example : run ex_env Chauthtok true false [lit "a"] = Ok (PAM_SUCCESS, Some (lit "a")) /\ run ex_env Close true false [lit "a"] = Ok (PAM_IGNORE, None).
Proof. vm_compute. auto. Qed.

Print Assumptions echo_arguments.
Print Assumptions echo_file.
Print Assumptions echo_defined.
Print Assumptions echo_empty_file_refuted.
