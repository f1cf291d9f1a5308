(** Theorems about pam_issue. *)
From Coq Require Import String Ascii List Arith ZArith Bool Lia.
From Verif Require Import Base Str_Model Str_Facts Opt_Model Opt_Facts Issue_Model.
Import ListNotations.

(** ** What the text means *)
(** [s] is [n] in decimal digits, without a zero in front. *)
Definition digits_of (n : Z) (s : cstr) : Prop := forallb isdigit s = true /\ value s = n /\ s <> [] /\ (forall s', s = "0"%char :: s' -> s' = []).
(** The same with at least two digits. *)
Definition two_digits (n : Z) (s : cstr) : Prop := ((n < 10)%Z /\ exists d, s = "0"%char :: d /\ digits_of n d) \/ ((10 <= n)%Z /\ digits_of n s).
Inductive weekday : Z -> string -> Prop :=
| wd0 : weekday 0 "Sun" | wd1 : weekday 1 "Mon" | wd2 : weekday 2 "Tue" | wd3 : weekday 3 "Wed" | wd4 : weekday 4 "Thu" | wd5 : weekday 5 "Fri" | wd6 : weekday 6 "Sat".
Inductive month : Z -> string -> Prop :=
| mo0 : month 0 "Jan" | mo1 : month 1 "Feb" | mo2 : month 2 "Mar" | mo3 : month 3 "Apr" | mo4 : month 4 "May" | mo5 : month 5 "Jun"
| mo6 : month 6 "Jul" | mo7 : month 7 "Aug" | mo8 : month 8 "Sep" | mo9 : month 9 "Oct" | mo10 : month 10 "Nov" | mo11 : month 11 "Dec".
(** The clock gives a time from the year 0 on. *)
Definition clock (E : env) : Prop := exists t, e_time E = Some t /\ (0 <= t_wday t <= 6)%Z /\ (0 <= t_mon t <= 11)%Z /\ (1 <= t_mday t <= 31)%Z /\
  (0 <= t_hour t <= 23)%Z /\ (0 <= t_min t <= 59)%Z /\ (0 <= t_sec t <= 60)%Z /\ (-1900 <= t_year t)%Z.
(** The text of an escape. *)
Inductive means (E : env) : ascii -> cstr -> Prop :=
| m_s : means E "s"%char (u_sys E) | m_n : means E "n"%char (u_node E) | m_r : means E "r"%char (u_release E) | m_v : means E "v"%char (u_version E) | m_m : means E "m"%char (u_machine E)
| m_o : forall d, e_domain E = Some d -> means E "o"%char d
| m_no : e_domain E = None -> means E "o"%char []
| m_d : forall t w m day year, e_time E = Some t -> weekday (t_wday t) w -> month (t_mon t) m -> digits_of (t_mday t) day -> digits_of (t_year t + 1900) year ->
    means E "d"%char (lit w ++ lit " " ++ lit m ++ lit " " ++ day ++ lit "  " ++ year)
| m_t : forall t h m s, e_time E = Some t -> two_digits (t_hour t) h -> two_digits (t_min t) m -> two_digits (t_sec t) s -> means E "t"%char (h ++ lit ":" ++ m ++ lit ":" ++ s)
| m_l : forall t, e_tty E = Some (lit "/dev/" ++ t)%list -> means E "l"%char t
| m_l' : forall t, e_tty E = Some t -> (forall s, t <> (lit "/dev/" ++ s)%list) -> means E "l"%char t
| m_nl : e_tty E = None -> means E "l"%char []
| m_u : forall n s, e_users E = Some n -> digits_of n s -> means E "u"%char s
| m_U1 : e_users E = Some 1%Z -> means E "U"%char (lit "1 user")
| m_U : forall n s, e_users E = Some n -> n <> 1%Z -> digits_of n s -> means E "U"%char (s ++ lit " users")
| m_other : forall c, ~ In c (lit "snrvmodtluU") -> c <> NUL -> means E c [c]
| m_nul : means E NUL [].
(** The whole text. *)
Inductive text (E : env) : list ascii -> cstr -> Prop :=
| t_nil : text E [] []
| t_end : text E ["\"%char] []
| t_nul : forall s o, text E s o -> text E (NUL :: s) o
| t_char : forall c s o, c <> NUL -> c <> "\"%char -> text E s o -> text E (c :: s) (c :: o)
| t_escape : forall k v s o, means E k v -> text E s o -> text E ("\"%char :: k :: s) (v ++ o).
(** The file: that of the last issue= option. *)
Definition file_of (args : list cstr) (f : cstr) : Prop :=
  (exists a b, args = (a ++ (lit "issue=" ++ f) :: b)%list /\ forall w, ~ In (lit "issue=" ++ w)%list b) \/ ((forall w, ~ In (lit "issue=" ++ w)%list args) /\ f = lit "/etc/issue").

(** ** Numbers *)
Lemma dec_lead : forall fuel n, (0 < n < 10 ^ Z.of_nat fuel)%Z -> exists d s, dec_loop fuel n [] = d :: s /\ digit_val d <> 0%Z.
Proof.
  induction fuel as [|fuel IH]; intros n H; [cbn in H; lia|]. cbn [dec_loop]. rewrite Nat2Z.inj_succ, Z.pow_succ_r in H by lia.
  pose proof (Z.mod_pos_bound n 10 ltac:(lia)) as M. destruct (digit_chr (n mod 10) M) as [_ V]. pose proof (Z.div_mod n 10 ltac:(lia)) as DM.
  destruct (Z.eqb_spec (n / 10) 0) as [Q|Q].
  - eexists _, []. split; [reflexivity|]. rewrite V. lia.
  - assert (B : (0 <= n / 10)%Z) by (apply Z.div_pos; lia). assert (B' : (n / 10 < 10 ^ Z.of_nat fuel)%Z) by (apply Z.div_lt_upper_bound; lia).
    destruct (IH (n / 10)%Z ltac:(lia)) as (d & s & X & D). rewrite dec_loop_acc, X. exists d. eexists. split; [reflexivity|exact D].
Qed.
Lemma decimal_digits : forall n, (0 <= n)%Z -> digits_of n (decimal n).
Proof.
  intros n H. destruct (decimal_value n H) as (A & B & C). split; [exact A|]. split; [exact B|]. split; [exact C|]. intros s' Q.
  destruct (Z.eq_dec n 0) as [->|N]; [vm_compute in Q; congruence|]. exfalso.
  destruct (dec_lead (S (Z.to_nat (Z.log2 n))) n) as (d & s & X & D).
  - split; [lia|]. pose proof (Z.log2_spec n ltac:(lia)) as [_ L]. pose proof (Z.log2_nonneg n). rewrite Nat2Z.inj_succ, Z2Nat.id by lia. eapply Z.lt_le_trans; [exact L|]. apply Z.pow_le_mono_l. lia.
  - unfold decimal in Q. rewrite X in Q. injection Q as -> _. apply D. reflexivity.
Qed.
Lemma fmt_d_digits : forall n, (0 <= n)%Z -> digits_of n (fmt_d n).
Proof. intros n H. unfold fmt_d. destruct (Z.ltb_spec n 0); [lia|]. apply decimal_digits. exact H. Qed.
Lemma fmt_02_digits : forall n, (0 <= n)%Z -> two_digits n (fmt_02 n).
Proof.
  intros n H. unfold fmt_02, two_digits. destruct (Z.leb_spec 0 n); [|lia]. cbn [andb]. destruct (Z.ltb_spec n 10); [left|right]; (split; [lia|]); [|apply fmt_d_digits; exact H]. eexists. split; [reflexivity|apply fmt_d_digits; exact H].
Qed.

(** ** Escapes *)
Lemma escape_means : forall E c, clock E -> (forall n, e_users E = Some n -> (0 <= n)%Z) ->
  (escape E c = Ok Error /\ e_users E = None /\ (c = "u"%char \/ c = "U"%char)) \/ exists s, escape E c = Ok (Text s) /\ means E c s.
Proof.
  intros E c (t & T & Hw & Hm & Hd & Hh & Hi & Hs & Hy) HU. unfold escape. rewrite T.
  destruct (Ascii.eqb_spec c "s"%char) as [->|N1]; [right; eexists; split; [reflexivity|constructor]|].
  destruct (Ascii.eqb_spec c "n"%char) as [->|N2]; [right; eexists; split; [reflexivity|constructor]|].
  destruct (Ascii.eqb_spec c "r"%char) as [->|N3]; [right; eexists; split; [reflexivity|constructor]|].
  destruct (Ascii.eqb_spec c "v"%char) as [->|N4]; [right; eexists; split; [reflexivity|constructor]|].
  destruct (Ascii.eqb_spec c "m"%char) as [->|N5]; [right; eexists; split; [reflexivity|constructor]|].
  destruct (Ascii.eqb_spec c "o"%char) as [->|N6]; [right; eexists; split; [reflexivity|]; destruct (e_domain E) eqn:Q; [apply m_o; exact Q|apply m_no; exact Q]|].
  destruct (Ascii.eqb_spec c "d"%char) as [->|N7].
  { right.
    assert (W : exists w, name_of ["Sun"; "Mon"; "Tue"; "Wed"; "Thu"; "Fri"; "Sat"]%string (t_wday t) = Ok (lit w) /\ weekday (t_wday t) w).
    { assert (C : (t_wday t = 0 \/ t_wday t = 1 \/ t_wday t = 2 \/ t_wday t = 3 \/ t_wday t = 4 \/ t_wday t = 5 \/ t_wday t = 6)%Z) by lia.
      repeat (destruct C as [C|C]; [rewrite C; eexists; split; [reflexivity|constructor]|]). rewrite C; eexists; split; [reflexivity|constructor]. }
    assert (M : exists m, name_of ["Jan"; "Feb"; "Mar"; "Apr"; "May"; "Jun"; "Jul"; "Aug"; "Sep"; "Oct"; "Nov"; "Dec"]%string (t_mon t) = Ok (lit m) /\ month (t_mon t) m).
    { assert (C : (t_mon t = 0 \/ t_mon t = 1 \/ t_mon t = 2 \/ t_mon t = 3 \/ t_mon t = 4 \/ t_mon t = 5 \/ t_mon t = 6 \/ t_mon t = 7 \/ t_mon t = 8 \/ t_mon t = 9 \/ t_mon t = 10 \/ t_mon t = 11)%Z) by lia.
      repeat (destruct C as [C|C]; [rewrite C; eexists; split; [reflexivity|constructor]|]). rewrite C; eexists; split; [reflexivity|constructor]. }
    destruct W as (w & Qw & W), M as (m & Qm & M). rewrite Qw. cbn [bind]. rewrite Qm. cbn [bind]. eexists. split; [reflexivity|].
    apply (m_d E t w m); try assumption; apply fmt_d_digits; lia. }
  destruct (Ascii.eqb_spec c "t"%char) as [->|N8].
  { right. eexists. split; [reflexivity|]. apply (m_t E t); try assumption; apply fmt_02_digits; lia. }
  destruct (Ascii.eqb_spec c "l"%char) as [->|N9].
  { right. eexists. split; [reflexivity|]. destruct (e_tty E) as [y|] eqn:Q; [|apply m_nl; exact Q]. destruct (skip_prefix (lit "/dev/") y) as [s|] eqn:P.
    - apply skip_prefix_some in P. subst y. apply m_l. exact Q.
    - apply m_l'; [exact Q|]. intros s ->. rewrite skip_prefix_app in P. discriminate P. }
  destruct (Ascii.eqb_spec c "u"%char) as [->|N10]; cbn [orb].
  { destruct (e_users E) as [n|] eqn:Q; [|left; auto]. right. eexists. split; [reflexivity|]. change (Ascii.eqb "u" "U") with false. cbv iota. apply (m_u E n); [exact Q|apply fmt_d_digits; apply HU; reflexivity]. }
  destruct (Ascii.eqb_spec c "U"%char) as [->|N11].
  { destruct (e_users E) as [n|] eqn:Q; [|left; auto]. right. eexists. split; [reflexivity|]. destruct (Z.eqb_spec n 1) as [->|N].
    - apply m_U1. exact Q.
    - apply (m_U E n); [exact Q|exact N|apply fmt_d_digits; apply HU; reflexivity]. }
  right. eexists. split; [reflexivity|]. cbn [cut]. destruct (Ascii.eqb_spec c NUL) as [->|N]; [apply m_nul|]. apply m_other; [|exact N].
  cbn. intuition congruence.
Qed.

(** ** The buffer *)
Lemma add_ok : forall E b size s, (Z.of_nat (length b) < size)%Z -> add E b size s = Ok None \/ exists size', add E b size s = Ok (Some ((b ++ s)%list, size')) /\ (Z.of_nat (length (b ++ s)) < size')%Z.
Proof.
  intros E b size s H. unfold add. rewrite app_length. destruct (Z.ltb_spec size (Z.of_nat (length b) + Z.of_nat (length s) + 1)) as [L|L]; cbn [andb].
  - destruct (negb (e_realloc E (size + (Z.of_nat (length s) + 1)))); [left; reflexivity|]. right. destruct (Z.ltb_spec (size + (Z.of_nat (length s) + 1)) (Z.of_nat (length b) + Z.of_nat (length s))); [lia|]. eexists. split; [reflexivity|lia].
  - right. destruct (Z.ltb_spec size (Z.of_nat (length b) + Z.of_nat (length s))); [lia|]. eexists. split; [reflexivity|lia].
Qed.
Lemma add_some : forall E b size s, (forall n, e_realloc E n = true) -> add E b size s <> Ok None.
Proof. intros E b size s H. unfold add. rewrite H, andb_false_r. destruct (Z.ltb _ (Z.of_nat (length b) + Z.of_nat (length s))); discriminate. Qed.
Lemma quoted_ok : forall E, clock E -> (forall n, e_users E = Some n -> (0 <= n)%Z) -> forall n err bytes b size, length bytes < n -> (Z.of_nat (length b) < size)%Z ->
  exists r out, quoted E err bytes b size = Ok (r, out) /\ (r = PAM_SUCCESS -> err = false /\ exists o, text E bytes o /\ out = (b ++ o)%list) /\
    (e_users E <> None -> (forall m, e_realloc E m = true) -> err = false -> r = PAM_SUCCESS) /\ (r = PAM_SUCCESS \/ r = PAM_BUF_ERR \/ r = PAM_SERVICE_ERR).
Proof.
  intros E CL HU. induction n as [|n IH]; intros err bytes b size L Hb; [lia|].
  assert (Fin : exists r out, (if (size <=? Z.of_nat (length b))%Z then UB else Ok (if err then (PAM_SERVICE_ERR, []) else (PAM_SUCCESS, b))) = Ok (r, out) /\ (r = PAM_SUCCESS -> err = false /\ out = b) /\ (err = false -> r = PAM_SUCCESS) /\ (r = PAM_SUCCESS \/ r = PAM_BUF_ERR \/ r = PAM_SERVICE_ERR)).
  { destruct (Z.leb_spec size (Z.of_nat (length b))); [lia|]. destruct err; eexists _, _; (split; [reflexivity|]); repeat split; auto; discriminate. }
  assert (Add : forall s rest, length rest < n -> exists r out, bind (add E b size s) (fun o => match o with None => Ok (PAM_BUF_ERR, []) | Some (b, size) => quoted E err rest b size end) = Ok (r, out) /\
     (r = PAM_SUCCESS -> err = false /\ exists o, text E rest o /\ out = (b ++ s ++ o)%list) /\
     (e_users E <> None -> (forall m, e_realloc E m = true) -> err = false -> r = PAM_SUCCESS) /\ (r = PAM_SUCCESS \/ r = PAM_BUF_ERR \/ r = PAM_SERVICE_ERR)).
  { intros s rest Lr. destruct (add_ok E b size s Hb) as [Q|(size' & Q & Hs)].
    - rewrite Q. cbn [bind]. exists PAM_BUF_ERR, []. split; [reflexivity|]. split; [discriminate|]. split; [|auto]. intros _ Ra _. exfalso. apply (add_some E b size s Ra Q).
    - rewrite Q. cbn [bind]. destruct (IH err rest (b ++ s)%list size' Lr Hs) as (r & out & X & A & B & C). exists r, out. split; [exact X|]. split; [|auto].
      intro R. destruct (A R) as (Er & o & To & ->). split; [exact Er|]. exists o. split; [exact To|]. symmetry. apply app_assoc. }
  destruct bytes as [|c rest]; cbn [quoted].
  - destruct Fin as (r & out & X & A & B & C). exists r, out. split; [exact X|]. split; [|auto]. intro R. destruct (A R) as (Er & ->). split; [exact Er|]. exists []. split; [constructor|symmetry; apply app_nil_r].
  - destruct (Ascii.eqb_spec c "\"%char) as [->|Nb].
    + destruct rest as [|k rest].
      * destruct Fin as (r & out & X & A & B & C). exists r, out. split; [exact X|]. split; [|auto]. intro R. destruct (A R) as (Er & ->). split; [exact Er|]. exists []. split; [constructor|symmetry; apply app_nil_r].
      * destruct (escape_means E k CL HU) as [(Q & U & _)|(s & Q & M)]; rewrite Q; cbn [bind].
        -- exists PAM_SERVICE_ERR, []. split; [reflexivity|]. split; [discriminate|]. split; [contradiction|auto].
        -- destruct (Add s rest) as (r & out & X & A & B & C); [cbn [length] in L; lia|]. exists r, out. split; [exact X|]. split; [|auto]. intro R. destruct (A R) as (Er & o & To & ->). split; [exact Er|]. exists (s ++ o)%list. split; [apply t_escape; assumption|reflexivity].
    + destruct (Add (cut [c]) rest) as (r & out & X & A & B & C); [cbn [length] in L; lia|]. exists r, out. split; [exact X|]. split; [|auto]. intro R. destruct (A R) as (Er & o & To & ->). split; [exact Er|].
      cbn [cut]. destruct (Ascii.eqb_spec c NUL) as [->|Nn].
      * exists o. split; [apply t_nul; exact To|reflexivity].
      * exists (c :: o). split; [apply t_char; assumption|reflexivity].
Qed.

(** ** Options *)
Lemma issue_fold : forall args, exists f, fold_left issue_arg args (None, true) = (f, negb (existsb (streq (lit "noesc")) args)) /\ file_of args (match f with Some f => f | None => lit "/etc/issue" end) /\ (f = None -> forall w, ~ In (lit "issue=" ++ w)%list args).
Proof.
  intro args. induction args as [|a args (f & Fo & G & N)] using rev_ind.
  - exists None. split; [reflexivity|]. split; [right; split; [intros w []|reflexivity]|intros _ w []].
  - rewrite fold_left_app, Fo, existsb_app. cbn [fold_left existsb]. rewrite orb_false_r. unfold issue_arg. destruct (skip_prefix (lit "issue=") a) as [v|] eqn:Q.
    + apply skip_prefix_some in Q. subst a. exists (Some v). split; [cbn [snd]; replace (streq (lit "noesc") (lit "issue=" ++ v)) with false by reflexivity; rewrite orb_false_r; reflexivity|]. split; [|discriminate].
      left. exists args, []. split; [reflexivity|intros w []].
    + pose proof (proj1 (skip_prefix_none _ _) Q) as Na. exists f. split; [|split].
      * destruct (streq a (lit "noesc")) eqn:S1; cbn [fst].
        -- apply streq_eq in S1. subst a. rewrite streq_refl, orb_true_r. reflexivity.
        -- replace (streq (lit "noesc") a) with false; [rewrite orb_false_r; reflexivity|]. symmetry. apply not_true_iff_false. intro X. apply streq_eq in X. subst a. rewrite streq_refl in S1. discriminate.
      * destruct G as [(x & b & E1 & H)|(H & E1)].
        -- left. rewrite E1. exists x, (b ++ [a])%list. split; [rewrite <- app_assoc; reflexivity|]. intros w I. apply in_app_iff in I. destruct I as [I|[I|[]]]; [apply (H w I)|apply Na; exists w; exact I].
        -- right. split; [|exact E1]. intros w I. apply in_app_iff in I. destruct I as [I|[I|[]]]; [apply (H w I)|apply Na; exists w; exact I].
      * intros Q' w I. apply in_app_iff in I. destruct I as [I|[I|[]]]; [apply (N Q' w I)|apply Na; exists w; exact I].
Qed.
Lemma file_of_unique : forall args f f', file_of args f -> file_of args f' -> f = f'.
Proof.
  intros args f f' [(a & b & -> & N)|(N & ->)] [(a' & b' & X & N')|(N' & ->)].
  - revert a' X. induction a as [|c a IH]; intros [|c' a'] X; cbn [app] in X.
    + injection X as X _. exact X.
    + injection X as X Y. exfalso. apply (N f'). rewrite Y. apply in_app_iff. right. left. reflexivity.
    + injection X as X Y. exfalso. apply (N' f). rewrite <- Y. apply in_app_iff. right. left. reflexivity.
    + injection X as _ X. apply (IH a' X).
  - exfalso. apply (N' f). apply in_app_iff. right. left. reflexivity.
  - exfalso. apply (N f'). rewrite X. apply in_app_iff. right. left. reflexivity.
  - reflexivity.
Qed.
Lemma noesc_iff : forall args, existsb (streq (lit "noesc")) args = true <-> In (lit "noesc") args.
Proof. intro args. rewrite existsb_exists. split; [intros (x & I & Q); apply streq_eq in Q; subst x; exact I|intro I; exists (lit "noesc"); split; [exact I|apply streq_refl]]. Qed.

(** ** Theorems *)
(** The prompt that is set is the text of the file, with the escapes replaced unless noesc is given, followed by the old prompt. *)
Theorem issue_prompt : forall E args r d p, clock E -> (forall n, e_users E = Some n -> (0 <= n)%Z) -> authenticate E false args = Ok (r, d, Some p) ->
  d = true /\ (e_set E = PAM_SUCCESS -> r = PAM_IGNORE) /\ (e_set E <> PAM_SUCCESS -> r = e_set E) /\
  exists f i o old, file_of args f /\ e_open E f = Some i /\ e_prompt E = (PAM_SUCCESS, old) /\ p = (o ++ match old with Some q => q | None => [] end)%list /\
    (~ In (lit "noesc") args -> f_error i = false /\ text E (f_bytes i) o) /\
    (In (lit "noesc") args -> exists n, f_size i = Some n /\ (n <= Z.of_nat (length (f_bytes i)))%Z /\ o = cut (firstn (Z.to_nat n) (f_bytes i))).
Proof.
  intros E args r d p CL HU H. unfold authenticate in H. destruct (issue_fold args) as (f & Fo & G & _). rewrite Fo in H.
  destruct (e_open E _) as [i|] eqn:Op; [|discriminate]. destruct (e_prompt E) as [rp old] eqn:Pr. destruct (Z.eqb_spec rp PAM_SUCCESS) as [->|Rp]; cbn [negb] in H; [|discriminate].
  assert (Fin : forall rr o, (if negb (rr =? PAM_SUCCESS)%Z then Ok (rr, true, None) else match old with
                 | Some old => if e_asprintf E then Ok (if (e_set E =? PAM_SUCCESS)%Z then PAM_IGNORE else e_set E, true, Some (o ++ old)%list) else Ok (PAM_BUF_ERR, true, None)
                 | None => Ok (if (e_set E =? PAM_SUCCESS)%Z then PAM_IGNORE else e_set E, true, Some o) end) = Ok (r, d, Some p) ->
     rr = PAM_SUCCESS /\ d = true /\ (e_set E = PAM_SUCCESS -> r = PAM_IGNORE) /\ (e_set E <> PAM_SUCCESS -> r = e_set E) /\ p = (o ++ match old with Some q => q | None => [] end)%list).
  { intros rr o X. destruct (Z.eqb_spec rr PAM_SUCCESS) as [->|R]; cbn [negb] in X; [|discriminate]. split; [reflexivity|].
    destruct old as [old|].
    - destruct (e_asprintf E); [|discriminate]. injection X as <- <- <-. destruct (Z.eqb_spec (e_set E) PAM_SUCCESS); repeat split; congruence.
    - injection X as <- <- <-. rewrite app_nil_r. destruct (Z.eqb_spec (e_set E) PAM_SUCCESS); repeat split; congruence. }
  destruct (existsb (streq (lit "noesc")) args) eqn:Ne; cbn [negb] in H.
  - assert (In (lit "noesc") args) by (apply noesc_iff; exact Ne). cbn [bind] in H. destruct (read_raw E i) as [rr o] eqn:Rr. apply Fin in H. destruct H as (-> & D & S1 & S2 & P). split; [exact D|]. split; [exact S1|]. split; [exact S2|].
    eexists _, i, o, old. split; [exact G|]. split; [exact Op|]. split; [reflexivity|]. split; [exact P|]. split; [contradiction|]. intros _.
    unfold read_raw in Rr. destruct (f_size i) as [n|]; [|discriminate]. exists n. destruct (negb (e_malloc E)); [discriminate|]. destruct (Z.leb_spec n (Z.of_nat (length (f_bytes i)))); [|discriminate]. injection Rr as <-. auto.
  - assert (~ In (lit "noesc") args) by (intro I; apply noesc_iff in I; congruence). unfold read_quoted in H. destruct (negb (e_malloc E)); [discriminate|].
    destruct (quoted_ok E CL HU (S (length (f_bytes i))) (f_error i) (f_bytes i) [] 1024) as (rr & o & X & A & _); [lia|cbn [length]; lia|]. rewrite X in H. cbn [bind] in H. apply Fin in H. destruct H as (-> & D & S1 & S2 & P).
    split; [exact D|]. split; [exact S1|]. split; [exact S2|]. destruct (A eq_refl) as (Er & o' & To & ->). eexists _, i, o', old. split; [exact G|]. split; [exact Op|]. split; [reflexivity|]. split; [exact P|]. split; [auto|contradiction].
Qed.

(** If nothing fails the prompt is set. *)
Theorem issue_set : forall E args f i old, clock E -> (exists n, e_users E = Some n /\ (0 <= n)%Z) -> file_of args f -> e_open E f = Some i -> e_prompt E = (PAM_SUCCESS, old) ->
  e_malloc E = true -> (forall n, e_realloc E n = true) -> e_asprintf E = true -> f_error i = false -> f_size i = Some (Z.of_nat (length (f_bytes i))) -> e_set E = PAM_SUCCESS ->
  exists p, authenticate E false args = Ok (PAM_IGNORE, true, Some p).
Proof.
  intros E args f i old CL (n & Un & Hn) F Op Pr Ma Re As Er Sz Se. unfold authenticate. destruct (issue_fold args) as (f' & Fo & G & _). rewrite Fo, (file_of_unique args _ f G F), Op, Pr. cbn [negb Z.eqb].
  change (negb (PAM_SUCCESS =? PAM_SUCCESS)%Z) with false. cbv iota. rewrite As, Se. change (PAM_SUCCESS =? PAM_SUCCESS)%Z with true. cbv iota.
  assert (X : exists o, (if negb (existsb (streq (lit "noesc")) args) then read_quoted E i else Ok (read_raw E i)) = Ok (PAM_SUCCESS, o)).
  { destruct (negb (existsb (streq (lit "noesc")) args)).
    - unfold read_quoted. rewrite Ma. cbn [negb]. destruct (quoted_ok E CL ltac:(intros m Q; rewrite Un in Q; injection Q as <-; exact Hn) (S (length (f_bytes i))) (f_error i) (f_bytes i) [] 1024) as (rr & o & X & _ & B & _); [lia|cbn [length]; lia|].
      rewrite X, B; [exists o; reflexivity|congruence|exact Re|exact Er].
    - unfold read_raw. rewrite Sz, Ma, Z.leb_refl. cbn [negb]. eexists. reflexivity. }
  destruct X as (o & X). rewrite X. cbn [bind]. change (negb (PAM_SUCCESS =? PAM_SUCCESS)%Z) with false. cbv iota. destruct old; eexists; reflexivity.
Qed.

(** No buffer is written outside its bounds, the prompt is set at most once in a process, and a failure leaves it alone. *)
Theorem issue_once : forall E done args, clock E -> (forall n, e_users E = Some n -> (0 <= n)%Z) -> exists r p, authenticate E done args = Ok (r, true, p) /\ (done = true -> r = PAM_IGNORE /\ p = None) /\
  (p = None -> done = true \/ r = PAM_SERVICE_ERR \/ r = PAM_BUF_ERR \/ (r = fst (e_prompt E) /\ r <> PAM_SUCCESS)).
Proof.
  intros E done args CL HU. destruct done; [exists PAM_IGNORE, None; repeat split; auto|]. unfold authenticate. destruct (issue_fold args) as (f & Fo & G & _). rewrite Fo.
  destruct (e_open E _) as [i|] eqn:Op; [|exists PAM_SERVICE_ERR, None; repeat split; auto; discriminate].
  destruct (e_prompt E) as [rp old] eqn:Pr. cbn [fst]. destruct (Z.eqb_spec rp PAM_SUCCESS) as [->|Rp]; cbn [negb]; [|exists rp, None; repeat split; auto; discriminate].
  assert (X : exists rr o, (if negb (existsb (streq (lit "noesc")) args) then read_quoted E i else Ok (read_raw E i)) = Ok (rr, o) /\ (rr = PAM_SUCCESS \/ rr = PAM_BUF_ERR \/ rr = PAM_SERVICE_ERR)).
  { destruct (negb (existsb (streq (lit "noesc")) args)).
    - unfold read_quoted. destruct (e_malloc E); cbn [negb]; [|eexists _, _; split; [reflexivity|auto]]. destruct (quoted_ok E CL HU (S (length (f_bytes i))) (f_error i) (f_bytes i) [] 1024) as (rr & o & X & _ & _ & C); [lia|cbn [length]; lia|]. exists rr, o. auto.
    - unfold read_raw. destruct (f_size i); [|eexists _, _; split; [reflexivity|auto]]. destruct (negb (e_malloc E)); [eexists _, _; split; [reflexivity|auto]|]. destruct (Z.leb _ _); eexists _, _; (split; [reflexivity|auto]). }
  destruct X as (rr & o & X & C). rewrite X. cbn [bind]. destruct C as [->|C].
  - change (negb (PAM_SUCCESS =? PAM_SUCCESS)%Z) with false. cbv iota. destruct old as [old|]; [destruct (e_asprintf E)|]; eexists _, _; (split; [reflexivity|]); split; auto; discriminate.
  - destruct (Z.eqb_spec rr PAM_SUCCESS) as [->|N]; [destruct C; discriminate|]. cbn [negb]. exists rr, None. split; [reflexivity|]. split; [discriminate|]. intros _. destruct C; auto.
Qed.

(** ** Example *)
Definition ex_env : env := mkEnv (fun f => if streq f (lit "/i") then Some (mkFile (Some 28%Z) (lit "\s \\ \n: \U on \d \t \l" ++ [c_nl; NUL; "!"%char; "\"%char])%list false) else None)
  (PAM_SUCCESS, Some (lit "login: ")) (lit "Linux") (lit "box") (lit "6.1") (lit "#1") (lit "x86_64") None (Some (mkTm 2 10 17 126 9 5 0)) (Some (lit "/dev/tty1")) (Some 1%Z) true (fun _ => true) true PAM_SUCCESS.
Example issue_example : clock ex_env /\ file_of [lit "issue=/x"; lit "issue=/i"] (lit "/i") /\
  authenticate ex_env false [lit "issue=/x"; lit "issue=/i"] = Ok (PAM_IGNORE, true, Some (lit "Linux \ box: 1 user on Tue Nov 17  2026 09:05:00 tty1" ++ [c_nl] ++ lit "!login: ")%list) /\
  authenticate ex_env false [lit "issue=/i"; lit "noesc"] = Ok (PAM_IGNORE, true, Some (lit "\s \\ \n: \U on \d \t \l" ++ [c_nl] ++ lit "login: ")%list) /\
  f_size (mkFile (Some 28%Z) (lit "\s \\ \n: \U on \d \t \l" ++ [c_nl; NUL; "!"%char; "\"%char])%list false) = Some (Z.of_nat (length (lit "\s \\ \n: \U on \d \t \l" ++ [c_nl; NUL; "!"%char; "\"%char])%list)).
Proof.
  split; [|split; [|split; [|split]]].
  - eexists. split; [reflexivity|]. cbn. lia.
  - left. exists [lit "issue=/x"], []. split; [reflexivity|intros w []].
  - vm_compute. reflexivity.
  - vm_compute. reflexivity.
  - vm_compute. reflexivity.
Qed.
Example issue_once_example : authenticate ex_env true [lit "issue=/i"] = Ok (PAM_IGNORE, true, None) /\ authenticate ex_env false [lit "issue=/x"] = Ok (PAM_SERVICE_ERR, true, None).
Proof. vm_compute. auto. Qed.

Print Assumptions issue_prompt.
Print Assumptions issue_set.
Print Assumptions issue_once.
