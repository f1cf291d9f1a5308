(** C105: pam_mail sets the variable MAIL and tells about mail. *)
From Coq Require Import String Ascii List Arith ZArith Bool Lia.
From Verif Require Import Base Num_Model Str_Model Opt_Model Opt_Facts Flconf_Props Mail_Model.
Import ListNotations.
Local Open Scope Z_scope.

(** ** Spec *)
Definition gives_folder (a d : cstr) : Prop := a = (lit "dir=" ++ d)%list.
(** The number at the beginning of the value, 0 if there is none. *)
Definition gives_count (a : cstr) (n : Z) : Prop := exists h, a = (lit "hash=" ++ h)%list /\
  ((exists neg v rest, signed 10 h neg v rest /\ n = ulong neg v) \/ ((forall neg v rest, ~ signed 10 h neg v rest) /\ n = 0)).
Definition other_place (args : list cstr) : Prop := exists d, d <> [] /\ In (lit "dir=" ++ d)%list args.
(** A directory for each of the letters [a]. *)
Inductive by_letter : cstr -> cstr -> Prop :=
| letter_none : by_letter [] []
| letter_more : forall c a h, by_letter a h -> by_letter (c :: a) ("/"%char :: c :: h).
(** The file in a spool directory: below one directory for each of the first [k] letters of the name. *)
Definition spooled (dir : cstr) (k : Z) (name f : cstr) : Prop := exists a b h, name = (a ++ b)%list /\ by_letter a h /\
  (Z.of_nat (length a) = k \/ (b = [] /\ Z.of_nat (length a) < k)) /\ f = (dir ++ h ++ lit "/" ++ name)%list.
(** The folder of the user. *)
Inductive lies (spool : cstr) (args : list cstr) (name home f : cstr) : Prop :=
| lies_default : forall k, ~ other_place args -> latest gives_count args 0 k -> spooled spool k name f -> lies spool args name home f
| lies_dir : forall d k, other_place args -> latest gives_folder args [] d -> latest gives_count args 0 k -> (forall r, d <> "~"%char :: r) -> spooled d k name f -> lies spool args name home f
| lies_home : forall d p, other_place args -> latest gives_folder args [] d -> p <> [] ->
    (d = (lit "~/" ++ p)%list \/ (d = (lit "~" ++ p)%list /\ forall r, p <> "/"%char :: r)) -> f = (home ++ lit "/" ++ p)%list -> lies spool args name home f.
Definition malformed (args : list cstr) : Prop := other_place args /\ (latest gives_folder args [] (lit "~") \/ latest gives_folder args [] (lit "~/")).
Definition empty_too (args : list cstr) : Prop := In (lit "empty") args \/ In (lit "standard") args.
Definition many (s : scanned) : Prop := exists n, s = Entries n /\ 2 < n.
(** What is known about the mail in the folder. *)
Inductive holds (E : env) (args : list cstr) (f : cstr) : kind -> Prop :=
| holds_new : forall size atime mtime, e_stat E f = Other size atime mtime -> 0 < size -> atime < mtime -> holds E args f New
| holds_old : forall size atime mtime, e_stat E f = Other size atime mtime -> 0 < size -> mtime <= atime -> ~ In (lit "standard") args -> holds E args f Old
| holds_some : forall size atime mtime, e_stat E f = Other size atime mtime -> 0 < size -> mtime <= atime -> In (lit "standard") args -> holds E args f Mail
| holds_empty : forall size atime mtime, e_stat E f = Other size atime mtime -> size <= 0 -> empty_too args -> holds E args f No
| holds_dir_new : e_stat E f = Directory -> e_mem E 208 = true -> many (e_scan E (f ++ lit "/new")%list) -> holds E args f New
| holds_dir_old : e_stat E f = Directory -> e_mem E 208 = true -> e_mem E 229 = true -> e_scan E (f ++ lit "/new")%list <> NoMemory -> ~ many (e_scan E (f ++ lit "/new")%list) ->
    many (e_scan E (f ++ lit "/cur")%list) -> holds E args f Old
| holds_dir_none : e_stat E f = Directory -> e_mem E 208 = true -> e_mem E 229 = true -> e_scan E (f ++ lit "/new")%list <> NoMemory -> ~ many (e_scan E (f ++ lit "/new")%list) ->
    e_scan E (f ++ lit "/cur")%list <> NoMemory -> ~ many (e_scan E (f ++ lit "/cur")%list) -> empty_too args -> holds E args f No.
Definition begins (c : call) : Prop := c = Open \/ exists d, c = Setcred true d.
Definition finishes (c : call) : Prop := c = Close \/ c = Setcred false true.
(** Mail is looked at. *)
Definition looks (c : call) (args : list cstr) : Prop := (begins c /\ ~ In (lit "nopen") args) \/ (finishes c /\ In (lit "close") args).
Definition known (E : env) (name home : cstr) : Prop := exists u, e_user E = Some u /\ e_pw E u = Some (name, home).
(** The message about mail of the kind [k]. *)
Definition message (args : list cstr) (k : kind) (f : cstr) (x : effect) : Prop :=
  (In (lit "standard") args /\ x = Told k None) \/ (~ In (lit "standard") args /\ x = Told k (Some f)).
Definition heard (silent : bool) (args : list cstr) (k : kind) : Prop := silent = false /\ (In (lit "quiet") args -> k = New).

(** ** Options *)
Ltac arg_cases o a :=
  unfold parse_arg;
  destruct (streq a (lit "debug")) eqn:A1; [apply streq_eq in A1; subst a|apply streq_neq in A1;
  destruct (streq a (lit "quiet")) eqn:A2; [apply streq_eq in A2; subst a|apply streq_neq in A2;
  destruct (streq a (lit "standard")) eqn:A3; [apply streq_eq in A3; subst a|apply streq_neq in A3;
  destruct (skip_prefix (lit "dir=") a) as [dv|] eqn:A4; [apply skip_prefix_some in A4; subst a|apply skip_prefix_none in A4;
  destruct (skip_prefix (lit "hash=") a) as [hv|] eqn:A5; [apply skip_prefix_some in A5; subst a|apply skip_prefix_none in A5;
  destruct (streq a (lit "close")) eqn:A6; [apply streq_eq in A6; subst a|apply streq_neq in A6;
  destruct (streq a (lit "nopen")) eqn:A7; [apply streq_eq in A7; subst a|apply streq_neq in A7;
  destruct (streq a (lit "noenv")) eqn:A8; [apply streq_eq in A8; subst a|apply streq_neq in A8;
  destruct (streq a (lit "empty")) eqn:A9; [apply streq_eq in A9; subst a|apply streq_neq in A9]]]]]]]]];
  cbn [o_silent o_quiet o_standard o_empty o_new o_dir o_hash o_close o_nopen o_noenv].
Ltac flagged := let o := fresh "o" in let a := fresh "a" in let HH := fresh "HH" in intros o a; arg_cases o a; split; intro HH;
  try (right; assumption); try (left; reflexivity); try (left; right; reflexivity); try (left; left; reflexivity); try reflexivity;
  try (destruct HH as [HH|HH]; [try discriminate HH; try contradiction; try (destruct HH as [HH|HH]; (discriminate HH || contradiction))|try exact HH; try reflexivity]); try discriminate.
Lemma one_in : forall (w : cstr) args, (exists s, In s args /\ s = w) <-> In w args.
Proof. intros w args. split; [intros (s & I & ->); exact I|intros I; exists w; auto]. Qed.
Definition from_args (silent : bool) (args : list cstr) : opts := fold_left parse_arg args (mkOpts silent false false false false [] 0 false false false).
Lemma word_flag : forall (val : opts -> bool) w silent args, (forall o a, val (parse_arg o a) = true <-> a = w \/ val o = true) ->
  val (mkOpts silent false false false false [] 0 false false false) = false -> (val (from_args silent args) = true <-> In w args).
Proof.
  intros val w silent args H Z. unfold from_args. rewrite (flag_fold (fun a => a = w) parse_arg val H args), Z, one_in. split; [intros [X|X]; [exact X|discriminate]|auto].
Qed.
Lemma folder_step : forall o a, gives_folder a (o_dir (parse_arg o a)) \/ ((forall y, ~ gives_folder a y) /\ o_dir (parse_arg o a) = o_dir o).
Proof.
  intros o a. unfold gives_folder. arg_cases o a; try (right; split; [intros y Y; discriminate Y|reflexivity]); try (left; reflexivity).
  right. split; [intros y ->; apply A4; eauto|reflexivity].
Qed.
Lemma count_step : forall o a, gives_count a (o_hash (parse_arg o a)) \/ ((forall y, ~ gives_count a y) /\ o_hash (parse_arg o a) = o_hash o).
Proof.
  intros o a. unfold gives_count. arg_cases o a; try (right; split; [intros y (h & Y & _); discriminate Y|reflexivity]).
  - left. exists hv. split; [reflexivity|]. destruct (strtoul 10 hv) as [v [rest|]] eqn:Q.
    + apply strtoul_some in Q; [|lia]. destruct Q as (neg & n & G & ->). left. exists neg, n, rest. auto.
    + apply strtoul_none in Q; [|lia]. destruct Q as (-> & Q). right. auto.
  - right. split; [intros y (h & -> & _); apply A5; eauto|reflexivity].
Qed.
Lemma place_flag : forall silent args, o_new (from_args silent args) = true <-> other_place args.
Proof.
  intros silent args. unfold from_args. rewrite (flag_fold (fun a => exists d, d <> [] /\ a = (lit "dir=" ++ d)%list) parse_arg o_new).
  - cbn [o_new]. unfold other_place. split; [intros [(s & I & d & N & ->)|X]; [eauto|discriminate]|]. intros (d & N & I). left. eauto.
  - intros o a. arg_cases o a; split; intro HH; try (right; exact HH); try (destruct HH as [(d & N & HH)|HH]; [discriminate HH|exact HH]).
    + destruct dv; [right; exact HH|left; eexists; split; [|reflexivity]; discriminate].
    + destruct HH as [(d & N & HH)|HH]; [apply app_inv_head in HH; subst dv; destruct d; [contradiction|reflexivity]|]. destruct dv; [exact HH|reflexivity].
    + destruct HH as [(d & N & ->)|HH]; [destruct A4; eauto|exact HH].
Qed.
Lemma flags_spec : forall silent args, let o := from_args silent args in
  o_silent o = silent /\ (o_quiet o = true <-> In (lit "quiet") args) /\ (o_standard o = true <-> In (lit "standard") args) /\ (o_empty o = true <-> empty_too args) /\
  (o_close o = true <-> In (lit "close") args) /\ (o_nopen o = true <-> In (lit "nopen") args) /\ (o_noenv o = true <-> In (lit "noenv") args).
Proof.
  intros silent args o. subst o. split.
  { unfold from_args. generalize (mkOpts silent false false false false [] 0 false false false) (eq_refl : o_silent (mkOpts silent false false false false [] 0 false false false) = silent).
    induction args as [|a args IH]; intros o Q; cbn [fold_left]; [exact Q|]. apply IH. rewrite <- Q. arg_cases o a; reflexivity. }
  split; [apply word_flag; [flagged|reflexivity]|]. split; [apply word_flag; [flagged|reflexivity]|]. split.
  { unfold from_args, empty_too. rewrite (flag_fold (fun a => a = lit "empty" \/ a = lit "standard") parse_arg o_empty); [|flagged]. cbn [o_empty]. split.
    - intros [(s & I & [->| ->])|X]; [auto|auto|discriminate].
    - intros [I|I]; left; eauto. }
  split; [apply word_flag; [flagged|reflexivity]|]. split; apply word_flag; [flagged|reflexivity|flagged|reflexivity].
Qed.
Lemma parse_split : forall spool silent args, let o := from_args silent args in let p := parse spool silent args in
  o_silent p = o_silent o /\ o_quiet p = o_quiet o /\ o_standard p = o_standard o /\ o_empty p = o_empty o /\ o_hash p = o_hash o /\ o_close p = o_close o /\ o_nopen p = o_nopen o /\ o_noenv p = o_noenv o /\
  ((o_new p = o_new o /\ o_dir p = o_dir o) \/ (o_new o = false /\ o_new p = true /\ o_dir p = spool)).
Proof.
  intros spool silent args o p. subst p. unfold parse. change (fold_left parse_arg args (mkOpts silent false false false false [] 0 false false false)) with o.
  destruct (negb (o_hash o =? 0) && negb (o_new o)) eqn:Q; cbn; [|auto 12]. apply andb_true_iff in Q. destruct Q as (_ & Q). apply negb_true_iff in Q. auto 12.
Qed.

(** ** The folder *)
Lemma by_letter_map : forall a, by_letter a (flat_map (fun c => [c_slash; c]) a).
Proof. induction a as [|c a IH]; cbn [flat_map]; [constructor|]. apply (letter_more c a _ IH). Qed.
Lemma hash_spooled : forall dir k name, 0 <= k -> spooled dir k name (dir ++ hash_dirs k name ++ c_slash :: name)%list.
Proof.
  intros dir k name K. set (m := Z.to_nat (Z.min k (Z.of_nat (length name)))). exists (firstn m name), (skipn m name), (hash_dirs k name).
  split; [symmetry; apply firstn_skipn|]. split; [apply by_letter_map|]. split; [|reflexivity]. rewrite firstn_length. unfold m. destruct (Z.le_gt_cases k (Z.of_nat (length name))) as [L|L].
  - left. lia.
  - right. split; [apply skipn_all2; lia|lia].
Qed.
Lemma ulong_nonneg : forall neg n, 0 <= n -> 0 <= ulong neg n.
Proof.
  intros neg n P. unfold ulong. assert (0 < ULONG_MAX) by reflexivity. destruct neg; [|lia]. destruct (n <=? ULONG_MAX); [|lia]. pose proof (Z.mod_pos_bound (- n) (2 ^ 64) ltac:(lia)). lia.
Qed.
Lemma count_nonneg : forall args k, latest gives_count args 0 k -> 0 <= k.
Proof.
  intros args k [(a & s & b & _ & (h & _ & [(neg & v & rest & G & ->)|(_ & ->)]) & _)|(_ & ->)]; try lia. apply ulong_nonneg. eapply signed_nonneg; [|exact G]. lia.
Qed.
Definition folder_memory (E : env) : Prop := e_mem E 156 = true /\ e_mem E 162 = true /\ e_mem E 171 = true.
Lemma folder_spec : forall E silent args name home, (forall r, e_spool E <> "~"%char :: r) -> let g := get_folder E (parse (e_spool E) silent args) name home in
  (fst g = PAM_SUCCESS /\ lies (e_spool E) args name home (snd g)) \/ (fst g = PAM_SERVICE_ERR /\ malformed args) \/ (fst g = PAM_BUF_ERR /\ ~ folder_memory E).
Proof.
  intros E silent args name home NT g. subst g. destruct (parse_split (e_spool E) silent args) as (_ & _ & _ & _ & PH & _ & _ & _ & PN). set (p := parse (e_spool E) silent args) in *.
  assert (LK : latest gives_count args 0 (o_hash p)) by (rewrite PH; apply (latest_fold gives_count parse_arg o_hash args (fun t s _ => count_step t s))).
  assert (LD : latest gives_folder args [] (o_dir (from_args silent args))) by apply (latest_fold gives_folder parse_arg o_dir args (fun t s _ => folder_step t s)).
  pose proof (place_flag silent args) as OP. pose proof (count_nonneg _ _ LK) as K0. unfold folder_memory.
  assert (SP : forall dir, (forall f, spooled dir (o_hash p) name f -> lies (e_spool E) args name home f) ->
    let g := (if negb (e_mem E 162) then (PAM_BUF_ERR, []) else if negb (e_mem E 171) then (PAM_BUF_ERR, []) else (PAM_SUCCESS, dir ++ hash_dirs (o_hash p) name ++ c_slash :: name)%list) in
    (fst g = PAM_SUCCESS /\ lies (e_spool E) args name home (snd g)) \/ (fst g = PAM_SERVICE_ERR /\ malformed args) \/ (fst g = PAM_BUF_ERR /\ ~ (e_mem E 156 = true /\ e_mem E 162 = true /\ e_mem E 171 = true))).
  { intros dir L g. subst g. destruct (e_mem E 162); cbn [negb fst snd]; [|right; right; split; [reflexivity|intros (_ & X & _); discriminate]].
    destruct (e_mem E 171); cbn [negb fst snd]; [|right; right; split; [reflexivity|intros (_ & _ & X); discriminate]]. left. split; [reflexivity|]. apply L, hash_spooled, K0. }
  assert (AH : forall q, q <> [] -> other_place args -> (o_dir (from_args silent args) = (lit "~/" ++ q)%list \/ (o_dir (from_args silent args) = (lit "~" ++ q)%list /\ forall r, q <> "/"%char :: r)) ->
    let g := (if negb (e_mem E 156) then (PAM_BUF_ERR, []) else (PAM_SUCCESS, home ++ c_slash :: q)%list) in
    (fst g = PAM_SUCCESS /\ lies (e_spool E) args name home (snd g)) \/ (fst g = PAM_SERVICE_ERR /\ malformed args) \/ (fst g = PAM_BUF_ERR /\ ~ (e_mem E 156 = true /\ e_mem E 162 = true /\ e_mem E 171 = true))).
  { intros q N O D g. subst g. destruct (e_mem E 156); cbn [negb fst snd]; [|right; right; split; [reflexivity|intros (X & _); discriminate]].
    left. split; [reflexivity|]. eapply lies_home; [exact O|exact LD|exact N|exact D|reflexivity]. }
  unfold get_folder. cbv zeta. destruct PN as [(-> & ->)|(NO & -> & ->)].
  - destruct (o_new (from_args silent args)) eqn:ON.
    + assert (O : other_place args) by (apply OP; reflexivity). clear OP ON.
      remember (o_dir (from_args silent args)) as d eqn:ED. clear ED.
      assert (PL : (forall r, d <> "~"%char :: r) -> forall f, spooled d (o_hash p) name f -> lies (e_spool E) args name home f) by (intros ND f F; eapply lies_dir; eassumption).
      destruct d as [|c d]; [apply SP, PL; discriminate|].
      destruct (Ascii.eqb_spec c "~") as [->|NC].
      2:{ assert (PL' := PL ltac:(intros ? ?; congruence)). destruct c as [[] [] [] [] [] [] [] []]; try (apply SP, PL'). contradiction. }
      destruct d as [|c2 d]; [right; left; split; [reflexivity|split; [exact O|left; exact LD]]|].
      destruct (Ascii.eqb_spec c2 "/") as [->|NC].
      2:{ assert (NS : forall r, c2 :: d <> "/"%char :: r) by (intros r Q; injection Q as Q _; contradiction).
        assert (X := AH (c2 :: d) ltac:(discriminate) O (or_intror (conj eq_refl NS))). destruct c2 as [[] [] [] [] [] [] [] []]; try exact X. contradiction. }
      destruct d as [|c3 d]; [right; left; split; [reflexivity|split; [exact O|right; exact LD]]|].
      apply AH; [discriminate|exact O|left; reflexivity].
    + apply SP. intros f F. eapply lies_default; [intro X; apply OP in X; discriminate|exact LK|exact F].
  - assert (NP : ~ other_place args) by (intro X; apply OP in X; congruence).
    assert (SP' := SP (e_spool E) (fun f F => lies_default _ _ _ _ _ _ NP LK F)). destruct (e_spool E) as [|c d] eqn:ES; [exact SP'|].
    assert (NC : c <> "~"%char) by (intros ->; apply (NT d); reflexivity). destruct c as [[] [] [] [] [] [] [] []]; try exact SP'. contradiction.
Qed.

(** ** The mail *)
Lemma status_spec : forall E silent args f k, get_mail_status E (parse (e_spool E) silent args) f = Some k <-> holds E args f k.
Proof.
  intros E silent args f k. destruct (parse_split (e_spool E) silent args) as (_ & _ & PS & PE & _). destruct (flags_spec silent args) as (_ & _ & FS & FE & _).
  rewrite <- PS in FS. rewrite <- PE in FE. set (o := parse (e_spool E) silent args) in *. clearbody o. clear PS PE. unfold get_mail_status. split.
  - destruct (e_stat E f) as [| |size atime mtime] eqn:ST; [discriminate| |].
    + destruct (e_mem E 208) eqn:M1; cbn [negb]; [|discriminate].
      assert (REST : e_scan E (f ++ lit "/new")%list <> NoMemory -> ~ many (e_scan E (f ++ lit "/new")%list) ->
        (if negb (e_mem E 229) then None else match e_scan E (f ++ lit "/cur")%list with NoMemory => None | Unreadable => if o_empty o then Some No else None | Entries n => if 2 <? n then Some Old else if o_empty o then Some No else None end) = Some k -> holds E args f k).
      { intros N1 N2. destruct (e_mem E 229) eqn:M2; cbn [negb]; [|discriminate]. destruct (e_scan E (f ++ lit "/cur")%list) as [n| |] eqn:C; [|discriminate|].
        - destruct (Z.ltb_spec 2 n) as [L|L]; [intro X; injection X as <-; apply holds_dir_old; auto; rewrite C; exists n; auto|].
          destruct (o_empty o); [|discriminate]. intro X. injection X as <-. apply holds_dir_none; auto; rewrite ?C; [discriminate| |apply FE; reflexivity]. intros (m & Q & P). injection Q as <-. lia.
        - destruct (o_empty o); [|discriminate]. intro X. injection X as <-. apply holds_dir_none; auto; rewrite ?C; [discriminate| |apply FE; reflexivity]. intros (m & Q & P). discriminate. }
      destruct (e_scan E (f ++ lit "/new")%list) as [n| |] eqn:C; [|discriminate|].
      * destruct (Z.ltb_spec 2 n) as [L|L]; [intro X; injection X as <-; apply holds_dir_new; auto; rewrite C; exists n; auto|]. apply REST; [discriminate|]. intros (m & Q & P). injection Q as <-. lia.
      * apply REST; [discriminate|]. intros (m & Q & _). discriminate.
    + destruct (Z.ltb_spec 0 size) as [L|L].
      * destruct (Z.ltb_spec atime mtime) as [T|T]; [intro X; injection X as <-; eapply holds_new; eassumption|].
        destruct (o_standard o) eqn:S1; intro X; injection X as <-; [eapply holds_some; try eassumption; apply FS; reflexivity|eapply holds_old; try eassumption; intro Y; apply FS in Y; discriminate].
      * destruct (o_empty o); [|discriminate]. intro X. injection X as <-. eapply holds_empty; try eassumption. apply FE. reflexivity.
  - assert (LT : forall s, ~ many s -> forall n, s = Entries n -> (2 <? n) = false) by (intros s N n ->; apply Z.ltb_ge; destruct (Z.le_gt_cases n 2); [assumption|]; exfalso; apply N; exists n; split; [reflexivity|lia]).
    intros [size atime mtime ST L T|size atime mtime ST L T S1|size atime mtime ST L T S1|size atime mtime ST L S1|ST M1 (n & C & P)|ST M1 M2 N1 N2 (n & C & P)|ST M1 M2 N1 N2 N3 N4 S1]; rewrite ST.
    + rewrite (proj2 (Z.ltb_lt _ _) L), (proj2 (Z.ltb_lt _ _) T). reflexivity.
    + rewrite (proj2 (Z.ltb_lt _ _) L), (proj2 (Z.ltb_ge _ _) T). destruct (o_standard o); [exfalso; apply S1, FS; reflexivity|reflexivity].
    + rewrite (proj2 (Z.ltb_lt _ _) L), (proj2 (Z.ltb_ge _ _) T), (proj2 FS S1). reflexivity.
    + rewrite (proj2 (Z.ltb_ge _ _) L), (proj2 FE S1). reflexivity.
    + rewrite M1, C, (proj2 (Z.ltb_lt _ _) P). reflexivity.
    + rewrite M1, M2, C, (proj2 (Z.ltb_lt _ _) P). cbn [negb]. destruct (e_scan E (f ++ lit "/new")%list) as [m| |] eqn:D; [rewrite (LT _ N2 m eq_refl); reflexivity|contradiction|reflexivity].
    + rewrite M1, M2, (proj2 FE S1). cbn [negb].
      assert (Q : match e_scan E (f ++ lit "/cur")%list with NoMemory => None | Unreadable => Some No | Entries n => if 2 <? n then Some Old else Some No end = Some No)
        by (destruct (e_scan E (f ++ lit "/cur")%list) as [m| |] eqn:D; [rewrite (LT _ N4 m eq_refl); reflexivity|contradiction|reflexivity]).
      destruct (e_scan E (f ++ lit "/new")%list) as [m| |] eqn:D; [rewrite (LT _ N2 m eq_refl); exact Q|contradiction|exact Q].
Qed.

(** ** A call *)
(** Everything a call does, in the order in which it is done. *)
Inductive done (E : env) (est : bool) (silent : bool) (args : list cstr) (f : cstr) : Z -> list effect -> Prop :=
| done_mail : forall s t e r, (if est then ~ In (lit "noenv") args /\ s = [Set_ (lit "MAIL=" ++ f)%list] /\ e_putenv E = true /\ e_mem E 408 = true \/ In (lit "noenv") args /\ s = [] else s = []) ->
    ((t = [] /\ r = PAM_SUCCESS /\ ((if est then In (lit "nopen") args else ~ In (lit "close") args) \/
        ((if est then ~ In (lit "nopen") args else In (lit "close") args) /\ e_drop E = true /\ e_regain E = true /\ forall k, holds E args f k -> ~ heard silent args k))) \/
     (exists k x, holds E args f k /\ heard silent args k /\ message args k f x /\ t = [x] /\ r = e_info E /\ e_drop E = true /\ e_regain E = true /\ if est then ~ In (lit "nopen") args else In (lit "close") args)) ->
    (if est then e = [] else ~ In (lit "noenv") args /\ e = [Removed] \/ In (lit "noenv") args /\ e = []) ->
    done E est silent args f r (s ++ t ++ e)%list
| done_no_variable : est = true -> ~ In (lit "noenv") args -> (e_putenv E = false \/ e_mem E 408 = false) -> done E est silent args f PAM_BUF_ERR []
| done_no_privileges : forall s, (e_drop E = false \/ e_regain E = false) -> (if est then ~ In (lit "nopen") args else In (lit "close") args) ->
    (if est then ~ In (lit "noenv") args /\ s = [Set_ (lit "MAIL=" ++ f)%list] /\ e_putenv E = true /\ e_mem E 408 = true \/ In (lit "noenv") args /\ s = [] else s = []) -> done E est silent args f PAM_SESSION_ERR s.
Lemma do_spec : forall E silent args est, (forall r, e_spool E <> "~"%char :: r) -> let g := do_mail E silent args est in
  ((forall name home, ~ known E name home) /\ g = (PAM_USER_UNKNOWN, [])) \/
  (exists name home, known E name home /\ ((malformed args /\ g = (PAM_SERVICE_ERR, [])) \/ (~ folder_memory E /\ g = (PAM_BUF_ERR, [])) \/
    (exists f, lies (e_spool E) args name home f /\ done E est silent args f (fst g) (snd g)))).
Proof.
  intros E silent args est NT g. subst g. unfold do_mail. cbv zeta. destruct (e_user E) as [u|] eqn:EU; [|left; split; [intros name home (u & X & _); congruence|reflexivity]].
  destruct (e_pw E u) as [(name, home)|] eqn:EP; [|left; split; [intros name home (u' & X & Y); congruence|reflexivity]].
  right. exists name, home. split; [exists u; auto|]. pose proof (folder_spec E silent args name home NT) as F. cbv zeta in F. destruct (get_folder E (parse (e_spool E) silent args) name home) as (r, f). cbn [fst snd] in F.
  destruct F as [(-> & L)|[(-> & L)|(-> & L)]]; [|left; auto|right; left; auto]. right. right. cbn [Z.eqb negb]. exists f. split; [exact L|]. clear L NT.
  pose proof (fun k => status_spec E silent args f k) as ST.
  destruct (parse_split (e_spool E) silent args) as (P1 & P2 & P3 & _ & _ & P6 & P7 & P8 & _). destruct (flags_spec silent args) as (F1 & F2 & F3 & _ & F6 & F7 & F8).
  rewrite <- P1 in F1. rewrite <- P2 in F2. rewrite <- P3 in F3. rewrite <- P6 in F6. rewrite <- P7 in F7. rewrite <- P8 in F8. clear P1 P2 P3 P6 P7 P8. set (o := parse (e_spool E) silent args) in *. clearbody o.
  assert (B : forall (b : bool) (P : Prop), (b = true <-> P) -> (b = true /\ P) \/ (b = false /\ ~ P)) by (intros [] P X; [left; tauto|right; split; [reflexivity|intro Y; apply X in Y; discriminate]]).
  assert (REP : match get_mail_status E o f with
    | Some k => (report_mail E o k f = (PAM_SUCCESS, []) /\ forall k', holds E args f k' -> ~ heard silent args k') \/ (holds E args f k /\ heard silent args k /\ exists x, message args k f x /\ report_mail E o k f = (e_info E, [x]))
    | None => forall k', holds E args f k' -> ~ heard silent args k' end).
  { destruct (get_mail_status E o f) as [k|] eqn:G; [|intros k' H; apply ST in H; congruence]. unfold report_mail. rewrite F1.
    assert (HK : holds E args f k) by (apply ST; reflexivity). assert (U : forall k', holds E args f k' -> k' = k) by (intros k' H; apply ST in H; congruence).
    destruct silent; cbn [orb]; [left; split; [reflexivity|intros k' _ (X & _); discriminate]|].
    destruct (B _ _ F2) as [(Q & QI)|(Q & QN)]; rewrite Q; cbn [andb].
    - destruct k; [|left; split; [reflexivity|intros k' H (_ & X); apply U in H; subst k'; discriminate (X QI)]..].
      right. split; [exact HK|]. split; [split; auto|]. destruct (B _ _ F3) as [(S1 & SI)|(S1 & SN)]; rewrite S1; eexists; (split; [|reflexivity]); [left|right]; auto.
    - right. split; [exact HK|]. split; [split; [reflexivity|intro X; contradiction]|]. destruct (B _ _ F3) as [(S1 & SI)|(S1 & SN)]; rewrite S1; eexists; (split; [|reflexivity]); [left|right]; auto. }
  clear ST F1 F2 F3. destruct est; cbn [andb negb orb].
  - rewrite !andb_true_r, orb_false_r. destruct (B _ _ F8) as [(N1 & NI)|(N1 & NN)]; rewrite N1; cbn [negb andb].
    + assert (SS : ~ In (lit "noenv") args /\ @nil effect = [Set_ (lit "MAIL=" ++ f)%list] /\ e_putenv E = true /\ e_mem E 408 = true \/ In (lit "noenv") args /\ @nil effect = []) by auto.
      destruct (B _ _ F7) as [(O1 & OI)|(O1 & ON)]; rewrite O1; cbn [negb]; [apply (done_mail E true silent args f [] [] [] PAM_SUCCESS); auto|].
      destruct (e_drop E) eqn:D; cbn [negb fst snd]; [|apply done_no_privileges; auto]. destruct (e_regain E) eqn:R; cbn [negb fst snd]; [|apply done_no_privileges; auto].
      destruct (get_mail_status E o f) as [k|].
      * destruct REP as [(-> & H)|(H1 & H2 & x & H3 & ->)]; cbn [fst snd app].
        -- apply (done_mail E true silent args f [] [] [] PAM_SUCCESS); auto 10.
        -- apply (done_mail E true silent args f [] [x] [] (e_info E)); auto. right. exists k, x. auto 10.
      * cbn [fst snd app]. apply (done_mail E true silent args f [] [] [] PAM_SUCCESS); auto 10.
    + destruct (e_mem E 408) eqn:M; cbn [negb fst snd]; [|apply done_no_variable; auto]. destruct (e_putenv E) eqn:PE; cbn [negb fst snd]; [|apply done_no_variable; auto].
      assert (SS : ~ In (lit "noenv") args /\ [Set_ (lit "MAIL=" ++ f)%list] = [Set_ (lit "MAIL=" ++ f)%list] /\ e_putenv E = true /\ e_mem E 408 = true \/ In (lit "noenv") args /\ [Set_ (lit "MAIL=" ++ f)%list] = []) by auto.
      destruct (B _ _ F7) as [(O1 & OI)|(O1 & ON)]; rewrite O1; cbn [negb]; [apply (done_mail E true silent args f [_] [] [] PAM_SUCCESS); auto|].
      destruct (e_drop E) eqn:D; cbn [negb fst snd]; [|apply done_no_privileges; auto]. destruct (e_regain E) eqn:R; cbn [negb fst snd]; [|apply done_no_privileges; auto].
      destruct (get_mail_status E o f) as [k|].
      * destruct REP as [(-> & H)|(H1 & H2 & x & H3 & ->)]; cbn [fst snd app].
        -- apply (done_mail E true silent args f [_] [] [] PAM_SUCCESS); auto 10.
        -- apply (done_mail E true silent args f [_] [x] [] (e_info E)); auto. right. exists k, x. auto 10.
      * cbn [fst snd app]. apply (done_mail E true silent args f [_] [] [] PAM_SUCCESS); auto 10.
  - rewrite !andb_false_r. cbn [andb negb]. set (w3 := if negb (o_noenv o) then [Removed] else []).
    assert (WW : ~ In (lit "noenv") args /\ w3 = [Removed] \/ In (lit "noenv") args /\ w3 = []) by (unfold w3; destruct (B _ _ F8) as [(N1 & NI)|(N1 & NN)]; rewrite N1; cbn [negb]; auto). clearbody w3.
    destruct (B _ _ F6) as [(O1 & OI)|(O1 & ON)]; rewrite O1; [|apply (done_mail E false silent args f [] [] w3 PAM_SUCCESS); auto].
    destruct (e_drop E) eqn:D; cbn [negb fst snd]; [|apply done_no_privileges; auto]. destruct (e_regain E) eqn:R; cbn [negb fst snd]; [|apply done_no_privileges; auto].
    destruct (get_mail_status E o f) as [k|].
    + destruct REP as [(-> & H)|(H1 & H2 & x & H3 & ->)]; cbn [fst snd app].
      * apply (done_mail E false silent args f [] [] w3 PAM_SUCCESS); auto 10.
      * apply (done_mail E false silent args f [] [x] w3 (e_info E)); auto. right. exists k, x. auto 10.
    + cbn [fst snd app]. apply (done_mail E false silent args f [] [] w3 PAM_SUCCESS); auto 10.
Qed.
Lemma calls : forall E c silent args, (begins c /\ pam_mail E c silent args = do_mail E silent args true) \/ (finishes c /\ pam_mail E c silent args = do_mail E silent args false) \/
  (~ begins c /\ ~ finishes c /\ pam_mail E c silent args = (PAM_IGNORE, [])).
Proof.
  intros E c silent args. unfold begins, finishes. destruct c as [|e d| |]; cbn [pam_mail].
  - right. right. split; [intros [X|(d & X)]; discriminate|]. split; [intros [X|X]; discriminate|reflexivity].
  - destruct e; cbn [orb negb]; [left; split; [right; eauto|reflexivity]|]. destruct d; cbn [negb]; [right; left; auto|]. right. right. split; [intros [X|(d & X)]; discriminate|]. split; [intros [X|X]; discriminate|reflexivity].
  - left. auto.
  - right. left. auto.
Qed.

(** Everything that is done: only for a known user, with the folder where the options put it; the variable is set at the beginning and removed at the end, and
    a message says what is in the folder. *)
Theorem mail_effects : forall E c silent args x, (forall r, e_spool E <> "~"%char :: r) -> In x (snd (pam_mail E c silent args)) ->
  exists name home f, known E name home /\ lies (e_spool E) args name home f /\
    (x = Set_ (lit "MAIL=" ++ f)%list /\ begins c /\ ~ In (lit "noenv") args \/
     x = Removed /\ finishes c /\ ~ In (lit "noenv") args \/
     exists k, message args k f x /\ looks c args /\ holds E args f k /\ heard silent args k).
Proof.
  intros E c silent args x NT I. unfold looks.
  assert (G : forall est, In x (snd (do_mail E silent args est)) -> exists name home f, known E name home /\ lies (e_spool E) args name home f /\
    (x = Set_ (lit "MAIL=" ++ f)%list /\ est = true /\ ~ In (lit "noenv") args \/ x = Removed /\ est = false /\ ~ In (lit "noenv") args \/
     exists k, message args k f x /\ (if est then ~ In (lit "nopen") args else In (lit "close") args) /\ holds E args f k /\ heard silent args k)).
  { intros est J. destruct (do_spec E silent args est NT) as [(_ & Q)|(name & home & K & [(_ & Q)|[(_ & Q)|(f & L & D)]])]; try (rewrite Q in J; destruct J).
    exists name, home, f. split; [exact K|]. split; [exact L|]. destruct D as [s t e r S1 T1 E1| |s _ _ S1]; [|destruct J|].
    - apply in_app_or in J. destruct J as [J|J]; [|apply in_app_or in J; destruct J as [J|J]].
      + left. destruct est; [destruct S1 as [(N & -> & _)|(_ & ->)]|subst s]; [destruct J as [<-|[]]; auto|destruct J|destruct J].
      + right. right. destruct T1 as [(-> & _)|(k & y & H1 & H2 & H3 & -> & _ & _ & _ & H4)]; [destruct J|]. destruct J as [<-|[]]. exists k. auto.
      + right. left. destruct est; [subst e; destruct J|]. destruct E1 as [(N & ->)|(_ & ->)]; [destruct J as [<-|[]]; auto|destruct J].
    - left. destruct est; [destruct S1 as [(N & -> & _)|(_ & ->)]|subst s]; [destruct J as [<-|[]]; auto|destruct J|destruct J]. }
  destruct (calls E c silent args) as [(B & Q)|[(B & Q)|(_ & _ & Q)]]; rewrite Q in I; [| |destruct I]; destruct (G _ I) as (name & home & f & K & L & [(X1 & X2 & X3)|[(X1 & X2 & X3)|(k & X1 & X2 & X3)]]);
    exists name, home, f; (split; [exact K|]); (split; [exact L|]); try discriminate X2; eauto 10.
Qed.
(** What is done for a known user if nothing fails. *)
Theorem mail_done : forall E c silent args name home, (forall r, e_spool E <> "~"%char :: r) -> known E name home -> ~ malformed args -> (forall l, e_mem E l = true) -> e_putenv E = true -> e_drop E = true -> e_regain E = true ->
  begins c \/ finishes c ->
  exists f t, lies (e_spool E) args name home f /\
    (begins c /\ ~ In (lit "noenv") args /\ snd (pam_mail E c silent args) = (Set_ (lit "MAIL=" ++ f) :: t)%list \/
     finishes c /\ ~ In (lit "noenv") args /\ snd (pam_mail E c silent args) = (t ++ [Removed])%list \/
     In (lit "noenv") args /\ snd (pam_mail E c silent args) = t) /\
    (t = [] /\ fst (pam_mail E c silent args) = PAM_SUCCESS /\ (looks c args -> forall k, holds E args f k -> ~ heard silent args k) \/
     exists k x, t = [x] /\ fst (pam_mail E c silent args) = e_info E /\ looks c args /\ holds E args f k /\ heard silent args k /\ message args k f x).
Proof.
  intros E c silent args name home NT K NM MEM PE DR RE BF. unfold looks.
  assert (G : forall est, exists f s t e, lies (e_spool E) args name home f /\ snd (do_mail E silent args est) = (s ++ t ++ e)%list /\
    (if est then ~ In (lit "noenv") args /\ s = [Set_ (lit "MAIL=" ++ f)%list] /\ e = [] \/ In (lit "noenv") args /\ s = [] /\ e = [] else s = [] /\ (~ In (lit "noenv") args /\ e = [Removed] \/ In (lit "noenv") args /\ e = [])) /\
    (t = [] /\ fst (do_mail E silent args est) = PAM_SUCCESS /\ ((if est then ~ In (lit "nopen") args else In (lit "close") args) -> forall k, holds E args f k -> ~ heard silent args k) \/
     exists k x, t = [x] /\ fst (do_mail E silent args est) = e_info E /\ (if est then ~ In (lit "nopen") args else In (lit "close") args) /\ holds E args f k /\ heard silent args k /\ message args k f x)).
  { intros est. destruct (do_spec E silent args est NT) as [(NK & _)|(name' & home' & K' & [(X & _)|[(X & _)|(f & L & D)]])]; [destruct (NK _ _ K)|contradiction|destruct X; unfold folder_memory; auto|].
    assert (name' = name /\ home' = home) as (-> & ->) by (destruct K as (u & U1 & U2); destruct K' as (u' & U3 & U4); rewrite U1 in U3; injection U3 as <-; rewrite U2 in U4; injection U4 as <- <-; auto).
    exists f. destruct D as [s t e r S1 T1 E1|_ _ [X|X]|s [X|X] _ _]; [|congruence|rewrite MEM in X; discriminate|congruence|congruence].
    exists s, t, e. split; [exact L|]. split; [reflexivity|]. split.
    - destruct est; [destruct S1 as [(N & -> & _)|(N & ->)]; subst e; auto|subst s; auto].
    - destruct T1 as [(-> & -> & T1)|(k & x & H1 & H2 & H3 & -> & -> & _ & _ & H4)]; [left|right; exists k, x; auto 10].
      split; [reflexivity|]. split; [reflexivity|]. intros LK k H. destruct T1 as [T1|(_ & _ & _ & T1)]; [destruct est; contradiction|apply T1, H]. }
  destruct (calls E c silent args) as [(B & ->)|[(B & ->)|(NB & NF & _)]]; [| |destruct BF; contradiction].
  - destruct (G true) as (f & s & t & e & L & -> & S1 & T1). exists f, t. split; [exact L|]. split.
    + destruct S1 as [(N & -> & ->)|(N & -> & ->)]; rewrite app_nil_r; cbn [app]; auto.
    + destruct T1 as [(A1 & A2 & A3)|(k & x & A1 & A2 & A3 & A4)]; [left; split; [exact A1|]; split; [exact A2|]; intros [(_ & X)|(X & _)]; [apply A3, X|exfalso; destruct B as [->|(d & ->)]; destruct X; discriminate]|right; exists k, x; auto 10].
  - destruct (G false) as (f & s & t & e & L & -> & S1 & T1). exists f, t. split; [exact L|]. destruct S1 as (-> & S1). split.
    + destruct S1 as [(N & ->)|(N & ->)]; rewrite ?app_nil_r; cbn [app]; auto.
    + destruct T1 as [(A1 & A2 & A3)|(k & x & A1 & A2 & A3 & A4)]; [left; split; [exact A1|]; split; [exact A2|]; intros [(X & _)|(_ & X)]; [exfalso; destruct X as [->|(d & ->)]; destruct B; discriminate|apply A3, X]|right; exists k, x; auto 10].
Qed.
(** The results. Only the message decides about the others: its result is the result. *)
Theorem mail_result : forall E c silent args, (forall r, e_spool E <> "~"%char :: r) -> let r := fst (pam_mail E c silent args) in let w := snd (pam_mail E c silent args) in
  (r = PAM_IGNORE /\ w = [] /\ ~ begins c /\ ~ finishes c) \/
  (r = PAM_USER_UNKNOWN /\ w = [] /\ forall name home, ~ known E name home) \/
  (r = PAM_SERVICE_ERR /\ w = [] /\ malformed args) \/
  (r = PAM_BUF_ERR /\ w = [] /\ (e_putenv E = false \/ exists l, In l [156; 162; 171; 408] /\ e_mem E l = false)) \/
  (r = PAM_SESSION_ERR /\ looks c args /\ (e_drop E = false \/ e_regain E = false) /\ ~ In Removed w) \/
  (r = PAM_SUCCESS /\ forall k f, ~ In (Told k f) w) \/
  (r = e_info E /\ exists k f, In (Told k f) w).
Proof.
  intros E c silent args NT. unfold looks.
  assert (G : forall est, let g := do_mail E silent args est in let r := fst g in let w := snd g in
    (r = PAM_USER_UNKNOWN /\ w = [] /\ forall name home, ~ known E name home) \/ (r = PAM_SERVICE_ERR /\ w = [] /\ malformed args) \/
    (r = PAM_BUF_ERR /\ w = [] /\ (e_putenv E = false \/ exists l, In l [156; 162; 171; 408] /\ e_mem E l = false)) \/
    (r = PAM_SESSION_ERR /\ (if est then ~ In (lit "nopen") args else In (lit "close") args) /\ (e_drop E = false \/ e_regain E = false) /\ ~ In Removed w) \/
    (r = PAM_SUCCESS /\ forall k f, ~ In (Told k f) w) \/ (r = e_info E /\ exists k f, In (Told k f) w)).
  { intros est g r w. subst r w g. destruct (do_spec E silent args est NT) as [(NK & ->)|(name & home & K & [(X & ->)|[(X & ->)|(f & L & D)]])]; cbn [fst snd]; [auto|auto| |].
    - right. right. left. split; [reflexivity|]. split; [reflexivity|]. right. unfold folder_memory in X. destruct (e_mem E 156) eqn:M1; [|exists 156; cbn [In]; auto]. destruct (e_mem E 162) eqn:M2; [|exists 162; cbn [In]; auto].
      destruct (e_mem E 171) eqn:M3; [destruct X; auto|exists 171; cbn [In]; auto].
    - destruct D as [s t e r S1 T1 E1|_ _ M|s P1 P2 S1].
      + right. right. right. right.
        assert (NS : forall k g, ~ In (Told k g) s) by (intros k g J; destruct est; [destruct S1 as [(_ & -> & _)|(_ & ->)]|subst s]; [destruct J as [J|[]]; discriminate|destruct J|destruct J]).
        assert (NE : forall k g, ~ In (Told k g) e) by (intros k g J; destruct est; [subst e; destruct J|]; destruct E1 as [(_ & ->)|(_ & ->)]; [destruct J as [J|[]]; discriminate|destruct J]).
        destruct T1 as [(-> & -> & _)|(k & x & _ & _ & H3 & -> & -> & _)].
        * left. split; [reflexivity|]. intros k g J. apply in_app_or in J. destruct J as [J|J]; [exact (NS _ _ J)|exact (NE _ _ J)].
        * right. split; [reflexivity|]. destruct H3 as [(_ & ->)|(_ & ->)]; exists k; eexists; apply in_or_app; right; left; reflexivity.
      + right. right. left. split; [reflexivity|]. split; [reflexivity|]. destruct M as [M|M]; [auto|right; exists 408; split; [cbn [In]; auto|exact M]].
      + right. right. right. left. split; [reflexivity|]. split; [exact P2|]. split; [exact P1|]. intro J. destruct est; [destruct S1 as [(_ & -> & _)|(_ & ->)]|subst s]; [destruct J as [J|[]]; discriminate|destruct J|destruct J]. }
  cbv zeta. destruct (calls E c silent args) as [(B & ->)|[(B & ->)|(NB & NF & ->)]]; [| |left; auto]; [pose proof (G true) as X|pose proof (G false) as X]; cbv zeta in X; cbn [In] in *;
    destruct X as [X|[X|[X|[(X1 & X2 & X3)|[X|X]]]]]; auto 10.
Qed.

(** ** Examples and what does not hold *)
Definition here (st : cstr -> found) (sc : cstr -> scanned) (drop : bool) (info : Z) : env :=
  mkEnv (lit "/var/mail") (Some (lit "bob")) (fun u => if streq u (lit "bob") then Some (lit "bob", lit "/home/bob") else None) (fun _ => true) st sc drop true true info.
Definition at_path (p : string) (x : found) : cstr -> found := fun q => if streq q (lit p) then x else Nothing.
Definition none_read : cstr -> scanned := fun _ => Unreadable.
Lemma here_spool : forall st sc d i r, e_spool (here st sc d i) <> "~"%char :: r.
Proof. discriminate. Qed.
Example mail_example :
  pam_mail (here (at_path "/var/mail/b/o/bob" (Other 10 5 6)) none_read true PAM_SUCCESS) Open false [lit "hash=2"] =
    (PAM_SUCCESS, [Set_ (lit "MAIL=/var/mail/b/o/bob"); Told New (Some (lit "/var/mail/b/o/bob"))]) /\
  pam_mail (here (at_path "/home/bob/Mail" Directory) (fun d => if streq d (lit "/home/bob/Mail/cur") then Entries 3 else Entries 2) true PAM_SUCCESS) Close false [lit "dir=~/Mail"; lit "close"] =
    (PAM_SUCCESS, [Told Old (Some (lit "/home/bob/Mail")); Removed]) /\
  pam_mail (here (at_path "/var/mail/bob" (Other 10 6 6)) none_read true PAM_SUCCESS) (Setcred true false) false [lit "standard"; lit "noenv"] = (PAM_SUCCESS, [Told Mail None]) /\
  pam_mail (here (at_path "/var/mail/bob" (Other 10 6 6)) none_read true PAM_SUCCESS) Open false [lit "quiet"] = (PAM_SUCCESS, [Set_ (lit "MAIL=/var/mail/bob")]) /\
  pam_mail (here (at_path "/var/mail/bob" (Other 10 6 6)) none_read true PAM_SUCCESS) Open false [lit "dir=~"] = (PAM_SERVICE_ERR, []).
Proof. vm_compute. auto 10. Qed.
(** An empty dir= is not ignored, as the log says, after another one: the folder is below the root directory. *)
Theorem mail_empty_dir_refuted : exists E c args f, known E (lit "bob") (lit "/home/bob") /\ In (Set_ (lit "MAIL=" ++ f)%list) (snd (pam_mail E c false (args ++ [lit "dir="])%list)) /\
  ~ In (Set_ (lit "MAIL=" ++ f)%list) (snd (pam_mail E c false args)) /\ f = lit "/bob".
Proof.
  exists (here (fun _ => Nothing) none_read true PAM_SUCCESS), Open, [lit "dir=/srv/mail"], (lit "/bob"). split; [exists (lit "bob"); auto|]. vm_compute. split; [left; reflexivity|]. split; [|reflexivity]. intros [X|[]]. discriminate.
Qed.
(** The end of the session leaves the variable MAIL if privileges cannot be dropped. *)
Theorem mail_removed_refuted : exists E args, known E (lit "bob") (lit "/home/bob") /\ ~ In (lit "noenv") args /\ ~ In Removed (snd (pam_mail E Close false args)).
Proof.
  exists (here (fun _ => Nothing) none_read false PAM_SUCCESS), [lit "close"]. split; [exists (lit "bob"); auto|]. split; [intros [X|[]]; discriminate|]. vm_compute. intros [].
Qed.
(** The user is told that there is no mail although neither directory can be read. *)
Theorem mail_none_refuted : exists E args f, In (Told No (Some f)) (snd (pam_mail E Open false args)) /\ e_scan E (f ++ lit "/new")%list = Unreadable /\ e_scan E (f ++ lit "/cur")%list = Unreadable.
Proof. exists (here (at_path "/var/mail/bob" Directory) none_read true PAM_SUCCESS), [lit "empty"], (lit "/var/mail/bob"). vm_compute. split; [right; left; reflexivity|auto]. Qed.
(** The session is refused when the message cannot be shown, though the variable is set. *)
Theorem mail_conversation_refuted : exists E args, In (Set_ (lit "MAIL=/var/mail/bob")) (snd (pam_mail E Open false args)) /\ fst (pam_mail E Open false args) = PAM_CONV_ERR /\ fst (pam_mail E Open true args) = PAM_SUCCESS.
Proof. exists (here (at_path "/var/mail/bob" (Other 10 5 6)) none_read true PAM_CONV_ERR), []. vm_compute. auto. Qed.
(** The number of hash= is not checked: letters count as 0, -1 as every letter of the name. *)
Example mail_hash_example :
  snd (pam_mail (here (fun _ => Nothing) none_read true PAM_SUCCESS) Open false [lit "hash=-1"]) = [Set_ (lit "MAIL=/var/mail/b/o/b/bob")] /\
  snd (pam_mail (here (fun _ => Nothing) none_read true PAM_SUCCESS) Open false [lit "hash=1"; lit "hash=two"]) = [Set_ (lit "MAIL=/var/mail/bob")].
Proof. vm_compute. auto. Qed.

Print Assumptions mail_effects.
Print Assumptions mail_done.
Print Assumptions mail_result.
Print Assumptions mail_empty_dir_refuted.
Print Assumptions mail_removed_refuted.
Print Assumptions mail_none_refuted.
Print Assumptions mail_conversation_refuted.
