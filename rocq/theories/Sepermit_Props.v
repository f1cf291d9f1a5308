(** C106, C107: pam_sepermit admits users by name, group or SELinux user, and exclusive users only one at a time. *)
From Coq Require Import String Ascii List Arith ZArith Bool Lia.
From Verif Require Import Base Num_Model Str_Model Str_Facts Opt_Model Opt_Facts Flconf_Props Sepermit_Model.
Import ListNotations.
Local Open Scope Z_scope.

(** ** Spec: the configuration *)
Definition comment (l : list ascii) : Prop := exists r, cut l = "#"%char :: r.
Definition blank (l : list ascii) : Prop := forallb isspace (cut l) = true.
(** What is left of a line without white space around it. *)
Definition content (l : list ascii) (body : cstr) : Prop := exists sp tr, cut l = (sp ++ body ++ tr)%list /\ forallb isspace sp = true /\ forallb isspace tr = true /\
  (exists c b, body = c :: b /\ isspace c = false) /\ isspace (last body NUL) = false.
(** A line with a first word and options. *)
Definition entry (l : list ascii) (word : cstr) (opts : list cstr) : Prop := ~ comment l /\ exists body, content l body /\ words (lit ":") body (word :: opts).
Definition only_colons (l : list ascii) : Prop := ~ comment l /\ exists body, content l body /\ forall c, In c body -> c = ":"%char.
(** The word is about the user. *)
Inductive about (E : env) (user : cstr) : cstr -> Prop :=
| about_group : forall g, e_group E user g = true -> about E user ("@"%char :: g)
| about_seuser : forall s, e_seuser E = Some s -> about E user ("%"%char :: s)
| about_user : (forall r, user <> "@"%char :: r) -> (forall r, user <> "%"%char :: r) -> about E user user.
Definition passed (E : env) (user : cstr) (l : list ascii) : Prop := comment l \/ blank l \/ exists w os, entry l w os /\ ~ about E user w.
(** The first line about the user has the options [opts]. *)
Definition governs (E : env) (user : cstr) (lines : list (list ascii)) (opts : list cstr) : Prop :=
  exists a l b w, lines = (a ++ l :: b)%list /\ (forall l', In l' a -> passed E user l') /\ entry l w opts /\ about E user w.
Definition gives_conf (a c : cstr) : Prop := a = (lit "conf=" ++ c)%list.
Definition standard_file (E : env) (f : cstr) : Prop :=
  (e_vendor E = true /\ e_missing E = true /\ f = lit "/usr/etc/security/sepermit.conf") \/ (~ (e_vendor E = true /\ e_missing E = true) /\ f = lit "/etc/security/sepermit.conf").
Definition enforcing (E : env) : Prop := e_enabled E = true /\ e_enforcing E = true.
(** A login uid is set. *)
Definition logged_in (t : option (list ascii)) : Prop := exists s neg n rest, t = Some s /\ signed 10 (cut (firstn 23 s)) neg n rest /\ ulong neg n mod 2 ^ 32 <> 2 ^ 32 - 1.
Definition exclusive (E : env) (opts : list cstr) : Prop := In (lit "exclusive") opts /\ e_root E = true /\ ~ logged_in (e_login E).
Definition granted (opts : list cstr) (r : Z) : Prop := (In (lit "ignore") opts /\ r = PAM_IGNORE) \/ (~ In (lit "ignore") opts /\ r = PAM_SUCCESS).
(** ** Spec: processes *)
Definition uid_line (l : list ascii) (v : Z) : Prop := exists s neg n rest, cut l = (lit "Uid:" ++ s)%list /\ signed 10 s neg n rest /\ v = long_of neg n mod 2 ^ 32.
(** The status text belongs to a process of the user: its first line with a uid has this one. *)
Definition owned (t : list ascii) (uid : Z) : Prop := exists a l b, lines_of t = (a ++ l :: b)%list /\ uid_line l uid /\ forall l' v, In l' a -> ~ uid_line l' v.
Definition runs (k : look) (uid pid : Z) : Prop := exists ps t, k = Look ps /\ In (pid, Some t) ps /\ owned t uid.
(** A line that ends where the uid is expected. *)
Definition short (l : list ascii) : Prop := (exists r, r <> [] /\ lit "Uid:" = (cut l ++ r)%list) \/ exists sp, cut l = (lit "Uid:" ++ sp)%list /\ forallb isspace sp = true.

(** ** The configuration *)
Lemma selected_iff : forall E user w, selected E user w = true <-> about E user w.
Proof.
  intros E user w. assert (DEF : (forall r, w <> "@"%char :: r) -> (forall r, w <> "%"%char :: r) -> streq user w = true <-> about E user w).
  { intros N1 N2. rewrite streq_eq. split; [intros <-; apply about_user; assumption|]. intro H. inversion H as [g G Q|s G Q|X Y Q]; [destruct (N1 g); auto|destruct (N2 s); auto|reflexivity]. }
  destruct w as [|c w]; [apply DEF; discriminate|].
  destruct (Ascii.eqb_spec c "@") as [->|N1].
  { cbn [selected]. split; [apply about_group|]. intro H. inversion H as [g G Q|s G Q|X Y Q]; subst; [exact G|]. destruct (X w). reflexivity. }
  destruct (Ascii.eqb_spec c "%") as [->|N2].
  { cbn [selected]. split.
    - destruct (e_seuser E) as [se|] eqn:SE; [|discriminate]. intro Q. apply streq_eq in Q. subst w. apply about_seuser. exact SE.
    - intro H. inversion H as [g G Q|s G Q|X Y Q]; subst; [rewrite G; apply streq_refl|]. destruct (Y w). reflexivity. }
  assert (D := DEF ltac:(intros r Q; injection Q as Q _; contradiction) ltac:(intros r Q; injection Q as Q _; contradiction)).
  destruct c as [[] [] [] [] [] [] [] []]; try exact D; contradiction.
Qed.
Lemma first_words : forall s w r, strtok (lit ":") s = Some (w, r) -> words (lit ":") s (w :: strtoks (lit ":") r).
Proof.
  intros s w r H. apply strtok_some in H. destruct H as (p & P & W & N & [(-> & ->)|(x & X & ->)]); [apply words_last; assumption|]. apply words_more; try assumption. apply strtoks_words.
Qed.
Lemma skip_head : forall s, match skip_spaces s with [] => True | c :: _ => isspace c = false end.
Proof. induction s as [|c s IH]; cbn [skip_spaces]; [exact I|]. destruct (isspace c) eqn:X; [exact IH|exact X]. Qed.
(** The three kinds of lines. *)
Lemma line_content : forall l, match rtrim (skip_spaces (cut l)) with [] => blank l | body => content l body end.
Proof.
  intro l. unfold blank, content. destruct (skip_spaces_split (cut l)) as (sp & ES & SP). pose proof (skip_head (cut l)) as SH. destruct (rtrim_spec (skip_spaces (cut l))) as (tr & ET & TR & LT).
  destruct (rtrim (skip_spaces (cut l))) as [|c b] eqn:Q.
  - cbn [app] in ET. rewrite ES, forallb_app, SP, ET, TR. reflexivity.
  - exists sp, tr. split; [rewrite <- ET; exact ES|]. split; [exact SP|]. split; [exact TR|]. split; [|destruct LT as [X|X]; [discriminate|exact X]].
    exists c, b. split; [reflexivity|]. rewrite ET in SH. exact SH.
Qed.
Lemma opt_iff : forall w os, existsb (fun o => streq o w) os = true <-> In w os.
Proof. intros w os. rewrite existsb_exists. split; [intros (x & I & X); apply streq_eq in X; subst x; exact I|intros I; exists w; split; [exact I|apply streq_refl]]. Qed.
Lemma entries_spec : forall E user lines,
  match match_entries E user lines with
  | Ok None => forall l, In l lines -> passed E user l
  | Ok (Some (x, i)) => exists opts, governs E user lines opts /\ (x = true <-> In (lit "exclusive") opts) /\ (i = true <-> In (lit "ignore") opts)
  | UB => exists a l b, lines = (a ++ l :: b)%list /\ only_colons l /\ forall l', In l' a -> passed E user l'
  | OutOfFuel => False
  end.
Proof.
  intros E user. induction lines as [|l ls IH]; cbn [match_entries]; [intros l []|].
  assert (STEP : passed E user l -> match match_entries E user ls with
    | Ok None => forall l', In l' (l :: ls) -> passed E user l'
    | Ok (Some (x, i)) => exists opts, governs E user (l :: ls) opts /\ (x = true <-> In (lit "exclusive") opts) /\ (i = true <-> In (lit "ignore") opts)
    | UB => exists a l0 b, l :: ls = (a ++ l0 :: b)%list /\ only_colons l0 /\ forall l', In l' a -> passed E user l'
    | OutOfFuel => False end).
  { intro P. destruct (match_entries E user ls) as [[(x, i)|]| |]; [| | |exact IH].
    - destruct IH as (opts & (a & l0 & b & w & -> & A & EN & AB) & F). exists opts. split; [|exact F]. exists (l :: a), l0, b, w. split; [reflexivity|]. split; [intros l' [<-|I]; auto|auto].
    - intros l' [<-|I]; auto.
    - destruct IH as (a & l0 & b & -> & C & A). exists (l :: a), l0, b. split; [reflexivity|]. split; [exact C|]. intros l' [<-|I]; auto. }
  pose proof (line_content l) as LC.
  assert (BODY : ~ comment l -> match (match rtrim (skip_spaces (cut l)) with [] => match_entries E user ls | body => match strtok (lit ":") body with None => UB | Some (word, rest) =>
      if selected E user word then let opts := strtoks (lit ":") rest in Ok (Some (existsb (fun o => streq o (lit "exclusive")) opts, existsb (fun o => streq o (lit "ignore")) opts)) else match_entries E user ls end end) with
    | Ok None => forall l', In l' (l :: ls) -> passed E user l'
    | Ok (Some (x, i)) => exists opts, governs E user (l :: ls) opts /\ (x = true <-> In (lit "exclusive") opts) /\ (i = true <-> In (lit "ignore") opts)
    | UB => exists a l0 b, l :: ls = (a ++ l0 :: b)%list /\ only_colons l0 /\ forall l', In l' a -> passed E user l'
    | OutOfFuel => False end).
  { intro NC. destruct (rtrim (skip_spaces (cut l))) as [|c b]; [apply STEP; right; left; exact LC|]. destruct (strtok (lit ":") (c :: b)) as [(w, rest)|] eqn:T.
    - assert (EN : entry l w (strtoks (lit ":") rest)) by (split; [exact NC|]; exists (c :: b); split; [exact LC|apply first_words; exact T]).
      destruct (selected E user w) eqn:SE.
      + cbv zeta. exists (strtoks (lit ":") rest). split; [|split; apply opt_iff]. exists [], l, ls, w. split; [reflexivity|]. split; [intros l' []|]. split; [exact EN|apply selected_iff; exact SE].
      + apply STEP. right. right. exists w, (strtoks (lit ":") rest). split; [exact EN|]. intro X. apply selected_iff in X. congruence.
    - exists [], l, ls. split; [reflexivity|]. split; [|intros l' []]. split; [exact NC|]. exists (c :: b). split; [exact LC|]. apply strtok_none in T. intros x I. destruct (T x I) as [<-|[]]. reflexivity. }
  unfold comment in *. destruct (cut l) as [|c s] eqn:CL; [apply BODY; intros (r & X); discriminate|].
  destruct (Ascii.eqb_spec c "#") as [->|NC]; [apply STEP; left; exists s; exact CL|].
  assert (B := BODY ltac:(intros (r & X); injection X as X _; contradiction)). destruct c as [[] [] [] [] [] [] [] []]; try exact B; contradiction.
Qed.
Lemma config_spec : forall E args, exists d, standard_file E d /\ latest gives_conf args d (config E args).
Proof.
  intros E args. unfold config. set (step := fun (c : option cstr) a => if streq a (lit "debug") then c else match skip_prefix (lit "conf=") a with Some f => Some f | None => c end).
  set (d := if e_vendor E && e_missing E then lit "/usr/etc/security/sepermit.conf" else lit "/etc/security/sepermit.conf"). exists d. split.
  - unfold d, standard_file. destruct (e_vendor E), (e_missing E); cbn [andb]; try (left; auto; fail); right; split; try reflexivity; intros (X & Y); discriminate.
  - apply (latest_fold gives_conf step (fun c => match c with Some f => f | None => d end) args) with (t := None). intros t s _. unfold step, gives_conf.
    destruct (streq s (lit "debug")) eqn:D; [apply streq_eq in D; subst s; right; split; [intros y Y; discriminate Y|reflexivity]|].
    destruct (skip_prefix (lit "conf=") s) as [f|] eqn:P; [apply skip_prefix_some in P; left; exact P|]. apply skip_prefix_none in P. right. split; [intros y Y; apply P; eauto|reflexivity].
Qed.
Lemma login_spec : forall t, get_loginuid t = 2 ^ 32 - 1 <-> ~ logged_in t.
Proof.
  intro t. unfold get_loginuid, logged_in. destruct t as [[|c s]|].
  - split; [|reflexivity]. intros _ (s & neg & n & rest & Q & G & _). injection Q as <-. cbn in G. destruct G as (sp & sg & ds & X & _ & _ & (ND & _) & _). destruct sp, sg, ds; try discriminate X. apply ND. reflexivity.
  - set (x := c :: s). destruct (strtoul 10 (cut (firstn 23 x))) as [v [rest|]] eqn:Q.
    + apply strtoul_some in Q; [|lia]. destruct Q as (neg & n & G & ->). split.
      * intros V (s' & neg' & n' & rest' & X & G' & W). injection X as <-. destruct (signed_unique 10 _ _ _ _ _ _ _ ltac:(lia) G G') as (-> & -> & _). contradiction.
      * intro H. destruct (Z.eq_dec (ulong neg n mod 2 ^ 32) (2 ^ 32 - 1)) as [Y|Y]; [exact Y|]. destruct H. exists x, neg, n, rest. auto.
    + apply strtoul_none in Q; [|lia]. destruct Q as (_ & Q). split; [|reflexivity]. intros _ (s' & neg & n & rest & X & G & _). injection X as <-. exact (Q _ _ _ G).
  - split; [|reflexivity]. intros _ (s & neg & n & rest & Q & _). discriminate.
Qed.

(** ** Processes *)
Lemma scan_spec : forall l, match scan_uid l with NoMatch => forall v, ~ uid_line l v | Value v => forall v', uid_line l v' <-> v' = v | Eof => short l end.
Proof.
  intro l. unfold scan_uid, uid_line, short. destruct (skip_prefix (lit "Uid:") (cut l)) as [s|] eqn:P.
  - apply skip_prefix_some in P. rewrite P. destruct (strtol s) as [v [rest|]] eqn:Q.
    + apply strtol_some in Q. destruct Q as (neg & n & G & ->). intro v'. split.
      * intros (s' & neg' & n' & rest' & X & G' & ->). apply app_inv_head in X. subst s'. destruct (signed_unique 10 _ _ _ _ _ _ _ ltac:(lia) G G') as (-> & -> & _). reflexivity.
      * intros ->. exists s, neg, n, rest. auto.
    + apply strtol_none in Q. destruct Q as (_ & Q). destruct (skip_spaces_split s) as (sp & ES & SP). destruct (skip_spaces s) as [|c r].
      * right. exists s. split; [reflexivity|]. rewrite app_nil_r in ES. rewrite ES. exact SP.
      * intros v' (s' & neg & n & rest & X & G & _). apply app_inv_head in X. subst s'. exact (Q _ _ _ G).
  - apply skip_prefix_none in P. destruct (is_prefix (cut l) (lit "Uid:")) eqn:I.
    + apply is_prefix_iff in I. destruct I as (r & I). left. exists r. split; [|exact I]. intros ->. rewrite app_nil_r in I. apply P. exists []. rewrite app_nil_r. congruence.
    + intros v' (s' & neg & n & rest & X & _). apply P. eauto.
Qed.
Definition wellformed (t : list ascii) : Prop := forall l, In l (lines_of t) -> ~ short l.
Lemma match_spec : forall t uid, match match_process_uid t uid with
  | Ok b => b = true <-> exists s, t = Some s /\ owned s uid | UB => exists s, t = Some s /\ ~ wellformed s | OutOfFuel => False end.
Proof.
  intros [t|] uid; cbn [match_process_uid]; [|split; [discriminate|intros (s & X & _); discriminate]].
  assert (G : forall lines, match match_lines lines uid with
    | Ok b => b = true <-> exists a l b', lines = (a ++ l :: b')%list /\ uid_line l uid /\ forall l' v, In l' a -> ~ uid_line l' v | UB => exists l, In l lines /\ short l | OutOfFuel => False end).
  { induction lines as [|l ls IH]; cbn [match_lines]; [split; [discriminate|intros (a & l & b & X & _); destruct a; discriminate]|]. pose proof (scan_spec l) as S1. destruct (scan_uid l) as [|v|].
    - destruct (match_lines ls uid) as [b| |]; [|destruct IH as (l0 & I & X); exists l0; split; [right; exact I|exact X]|exact IH]. rewrite IH. split.
      + intros (a & l0 & b' & -> & U & A). exists (l :: a), l0, b'. split; [reflexivity|]. split; [exact U|]. intros l' v [<-|I]; [apply S1|apply A, I].
      + intros (a & l0 & b' & X & U & A). destruct a as [|x a]; injection X as <- ->; [destruct (S1 _ U)|]. exists a, l0, b'. split; [reflexivity|]. split; [exact U|]. intros l' v I. apply A. right. exact I.
    - rewrite Z.eqb_eq. split.
      + intros ->. exists [], l, ls. split; [reflexivity|]. split; [apply S1; reflexivity|intros ? ? []].
      + intros (a & l0 & b' & X & U & A). destruct a as [|x a]; injection X as <- ->; [apply S1 in U; congruence|]. destruct (A l v (or_introl eq_refl)). apply S1. reflexivity.
    - exists l. split; [left; reflexivity|exact S1]. }
  specialize (G (lines_of t)). destruct (match_lines (lines_of t) uid) as [b| |]; [|destruct G as (l & I & X); exists t; split; [reflexivity|]; intro W; exact (W l I X)|exact G].
  rewrite G. unfold owned. split; [intros H; exists t; auto|intros (s & X & H); injection X as <-; exact H].
Qed.
Lemma running_spec : forall ps uid, match running ps uid with
  | Ok r => forall pid, In pid r <-> exists t, In (pid, Some t) ps /\ owned t uid | UB => exists pid t, In (pid, Some t) ps /\ ~ wellformed t | OutOfFuel => False end.
Proof.
  induction ps as [|(pid, t) ps IH]; intro uid; cbn [running]; [intro pid; split; [intros []|intros (t & [] & _)]|]. pose proof (match_spec t uid) as M. destruct (match_process_uid t uid) as [m| |]; cbn [bind]; [| |exact M].
  - specialize (IH uid). destruct (running ps uid) as [r| |]; cbn [bind]; [| |exact IH].
    + intro q. destruct m.
      * destruct (proj1 M eq_refl) as (s & -> & O). cbn [In]. rewrite IH. split; [intros [<-|(t & I & X)]; [exists s; auto|exists t; auto]|]. intros (t & [X|I] & Y); [injection X as <- <-; auto|right; exists t; auto].
      * rewrite IH. cbn [In]. split; [intros (s & I & X); exists s; auto|]. intros (s & [X|I] & Y); [injection X as <- ->|exists s; auto]. assert (false = true) by (apply M; exists s; auto). discriminate.
    + destruct IH as (q & s & I & W). exists q, s. split; [right; exact I|exact W].
  - destruct M as (s & -> & W). exists pid, s. split; [left; reflexivity|exact W].
Qed.
Lemma check_spec : forall E st uid kill, match check_running E st uid kill with
  | Ok (n, st') => s_held st' = s_held st /\ s_data st' = s_data st /\ s_time st' = S (s_time st) /\
      exists r, s_trace st' = (s_trace st ++ if kill then map Killed r else [])%list /\ (forall pid, In pid r <-> runs (e_look E (s_time st)) uid pid) /\ (0 < n <-> r <> [])
  | UB => exists ps pid t, e_look E (s_time st) = Look ps /\ In (pid, Some t) ps /\ ~ wellformed t
  | OutOfFuel => False end.
Proof.
  intros E st uid kill. unfold check_running, runs. cbv zeta. destruct (e_look E (s_time st)) as [|ps].
  - cbn. split; [reflexivity|]. split; [reflexivity|]. split; [reflexivity|]. exists []. split; [destruct kill; reflexivity|]. split; [|split; [lia|congruence]]. intro pid. split; [intros []|intros (ps & t & X & _); discriminate].
  - pose proof (running_spec ps uid) as R. destruct (running ps uid) as [r| |]; cbn [bind]; [| |exact R].
    + cbn. split; [reflexivity|]. split; [reflexivity|]. split; [reflexivity|]. exists r. split; [reflexivity|]. split.
      * intro pid. rewrite R. split; [intros (t & I & X); exists ps, t; auto|intros (ps' & t & X & Y); injection X as <-; exists t; exact Y].
      * destruct r; cbn [length]; split; intro X; try congruence; lia.
    + destruct R as (pid & t & I & W). exists ps, pid, t. auto.
Qed.
(** The passes of the killing loop, from one time to another. *)
Lemma kill_spec : forall fuel E uid st st', kill_loop fuel E st uid = Ok st' ->
  s_held st' = s_held st /\ s_data st' = s_data st /\ (s_time st < s_time st')%nat /\ (forall pid, ~ runs (e_look E (pred (s_time st'))) uid pid) /\
  exists r, s_trace st' = (s_trace st ++ map Killed r)%list /\ forall pid, In pid r <-> exists n, (s_time st <= n < s_time st')%nat /\ runs (e_look E n) uid pid.
Proof.
  induction fuel as [|fuel IH]; intros E uid st st' H; cbn [kill_loop] in H; [discriminate|]. pose proof (check_spec E st uid true) as C. destruct (check_running E st uid true) as [(n, st1)| |]; cbn [bind] in H; [|discriminate|discriminate].
  destruct C as (C1 & C2 & C3 & r & C4 & C5 & C6). destruct (Z.ltb_spec 0 n) as [L|L].
  - apply IH in H. destruct H as (H1 & H2 & H3 & H4 & r2 & H5 & H6). split; [congruence|]. split; [congruence|]. split; [lia|]. split; [exact H4|]. exists (r ++ r2)%list. split; [rewrite H5, C4, map_app, app_assoc; reflexivity|].
    intro pid. rewrite in_app_iff, C5, H6. split.
    + intros [X|(m & M & X)]; [exists (s_time st); split; [lia|exact X]|exists m; split; [lia|exact X]].
    + intros (m & M & X). destruct (Nat.eq_dec m (s_time st)) as [->|N]; [left; exact X|right; exists m; split; [lia|exact X]].
  - injection H as <-. split; [exact C1|]. split; [exact C2|]. split; [lia|]. assert (R : r = []) by (destruct r; [reflexivity|]; assert (0 < n) by (apply C6; discriminate); lia). subst r. split.
    + intros pid X. rewrite C3 in X. cbn [pred] in X. apply C5 in X. destruct X.
    + exists []. split; [exact C4|]. intro pid. rewrite C5. split; [intro X; exists (s_time st); split; [lia|exact X]|]. intros (m & M & X). replace m with (s_time st) in X by lia. exact X.
Qed.
Lemma drop_spec : forall st uid u, In u (s_held (drop_lock st uid)) <-> In u (s_held st) /\ u <> uid.
Proof. intros st uid u. cbn. rewrite filter_In, negb_true_iff, Z.eqb_neq. reflexivity. Qed.

(** ** Theorems *)
(** The end of the transaction gives the lock back after the processes of the user are gone: everything seen on the way is killed, nothing else is, and the last
    pass over /proc sees none of them; the superuser's are left alone. *)
Theorem sepermit_end : forall fuel E st st' uid, s_data st = Some uid -> finish fuel E st = Ok st' ->
  s_data st' = None /\ (forall u, In u (s_held st') <-> In u (s_held st) /\ u <> uid) /\
  exists killed, s_trace st' = (s_trace st ++ map Killed killed ++ [Released uid])%list /\
    (uid = 0 /\ killed = [] /\ s_time st' = s_time st \/
     uid <> 0 /\ (s_time st < s_time st')%nat /\ (forall pid, ~ runs (e_look E (pred (s_time st'))) uid pid) /\ forall pid, In pid killed <-> exists n, (s_time st <= n < s_time st')%nat /\ runs (e_look E n) uid pid).
Proof.
  intros fuel E st st' uid D H. unfold finish in H. rewrite D in H. unfold sepermit_unlock in H. destruct (Z.eqb_spec uid 0) as [->|NZ].
  - cbn [bind] in H. injection H as <-. split; [reflexivity|]. split; [intro u; apply drop_spec|]. exists []. split; [reflexivity|]. left. auto.
  - destruct (kill_loop fuel E st uid) as [st1| |] eqn:K; cbn [bind] in H; [|discriminate|discriminate]. injection H as <-. apply kill_spec in K. destruct K as (K1 & K2 & K3 & K4 & r & K5 & K6).
    split; [reflexivity|]. split; [intro u; rewrite <- K1; apply drop_spec|]. exists r. cbn. split; [rewrite K5, <- app_assoc; reflexivity|]. right. auto.
Qed.
(** What a lock needs. *)
Definition lockable (E : env) (st : state) (uid : Z) : Prop := (forall pid, ~ runs (e_look E (s_time st)) uid pid) /\ e_open E = true /\ e_other E uid = false /\ e_mem E = true.
Lemma lock_spec : forall fuel E st user b st', sepermit_lock fuel E st user = Ok (b, st') ->
  (b = true /\ exists uid, e_uid E user = Some uid /\ lockable E st uid /\
    (s_data st = None -> In uid (s_held st') /\ s_data st' = (if e_setdata E then Some uid else None) /\ s_trace st' = (s_trace st ++ [Locked uid])%list)) \/
  (b = false /\ (forall uid, e_uid E user = Some uid -> ~ lockable E st uid) /\ s_data st' = s_data st /\ (forall u, In u (s_held st') -> In u (s_held st)) /\ forall pid, In (Killed pid) (s_trace st') -> In (Killed pid) (s_trace st)).
Proof.
  intros fuel E st user b st' H. unfold sepermit_lock in H. destruct (e_uid E user) as [uid|]; [|injection H as <- <-; right; split; [reflexivity|]; split; [discriminate|auto]].
  pose proof (check_spec E st uid false) as C. destruct (check_running E st uid false) as [(n, st1)| |]; cbn [bind] in H; [|discriminate|discriminate]. destruct C as (C1 & C2 & C3 & r & C4 & C5 & C6). rewrite app_nil_r in C4.
  unfold lockable. destruct (Z.ltb_spec 0 n) as [L|L].
  { injection H as <- <-. right. split; [reflexivity|]. split; [|rewrite C1, C2, C4; auto]. intros u Q (N & _). injection Q as <-. destruct r as [|pid r]; [assert (~ (@nil Z <> [])) by congruence; apply C6 in L; contradiction|]. apply (N pid), C5. left. reflexivity. }
  assert (R : forall pid, ~ runs (e_look E (s_time st)) uid pid) by (intros pid X; apply C5 in X; assert (0 < n) by (apply C6; intros ->; destruct X); lia).
  destruct (e_open E) eqn:O; cbn [negb] in H; [|injection H as <- <-; right; split; [reflexivity|]; split; [intros u Q (_ & X & _); discriminate|rewrite C1, C2, C4; auto]].
  destruct (e_other E uid) eqn:OT.
  { injection H as <- <-. right. split; [reflexivity|]. split; [intros u Q (_ & _ & X & _); injection Q as <-; congruence|]. cbn [drop_lock s_data s_trace]. split; [exact C2|]. split; [intros u X; apply drop_spec in X; rewrite <- C1; tauto|].
    intros pid X. apply in_app_or in X. rewrite C4 in X. destruct X as [X|[X|[]]]; [exact X|discriminate]. }
  destruct (e_mem E) eqn:M; cbn [negb] in H.
  2:{ injection H as <- <-. right. split; [reflexivity|]. split; [intros u Q (_ & _ & _ & X); discriminate|]. split; [exact C2|]. split.
      - intros u X. apply drop_spec in X. cbn [s_held] in X. rewrite C1 in X. destruct X as ([X|X] & N); [congruence|exact X].
      - cbn. intros pid X. rewrite C4 in X. repeat (apply in_app_or in X; destruct X as [X|X]); [exact X|destruct X as [X|[]]; discriminate|destruct X as [X|[]]; discriminate]. }
  left. set (st2 := mkState (uid :: s_held st1) (s_data st1) (s_time st1) (s_trace st1 ++ [Locked uid])%list) in H. destruct (set_data fuel E st2 uid) as [st3| |] eqn:SD; cbn [bind] in H; [|discriminate|discriminate].
  injection H as <- <-. split; [reflexivity|]. exists uid. split; [reflexivity|]. split; [auto|]. intro ND. unfold set_data in SD. cbn [st2 s_data] in SD. rewrite C2, ND in SD.
  injection SD as <-. destruct (e_setdata E); cbn; rewrite ?C4; (split; [left; reflexivity|]); split; try reflexivity. rewrite C2. exact ND.
Qed.
(** The result of a call that is defined. *)
Theorem sepermit_result : forall fuel E st args r st', pam_sepermit fuel E st args = Ok (r, st') ->
  ((e_user E = None \/ e_user E = Some []) /\ r = PAM_USER_UNKNOWN /\ st' = st) \/
  exists user d cfg, e_user E = Some user /\ user <> [] /\ standard_file E d /\ latest gives_conf args d cfg /\
   ((e_file E cfg = None /\ r = PAM_SERVICE_ERR /\ st' = st) \/
    exists text, e_file E cfg = Some text /\
     (((forall l, In l (lines_of text) -> passed E user l) /\ r = PAM_IGNORE /\ st' = st) \/
      exists opts, governs E user (lines_of text) opts /\
       ((~ enforcing E /\ r = PAM_AUTH_ERR /\ st' = st) \/
        (enforcing E /\ ~ exclusive E opts /\ granted opts r /\ st' = st) \/
        (enforcing E /\ exclusive E opts /\ exists uid, e_uid E user = Some uid /\ lockable E st uid /\ granted opts r /\ (s_data st = None -> In uid (s_held st') /\ s_trace st' = (s_trace st ++ [Locked uid])%list /\ (e_setdata E = true -> s_data st' = Some uid))) \/
        (enforcing E /\ exclusive E opts /\ (forall uid, e_uid E user = Some uid -> ~ lockable E st uid) /\ r = PAM_AUTH_ERR /\ s_data st' = s_data st /\ forall pid, In (Killed pid) (s_trace st') -> In (Killed pid) (s_trace st))))).
Proof.
  intros fuel E st args r st' H. unfold pam_sepermit in H. destruct (e_user E) as [[|c user]|] eqn:EU; [injection H as <- <-; left; auto| |injection H as <- <-; left; auto].
  right. destruct (config_spec E args) as (d & SD & LA). exists (c :: user), d, (config E args). split; [reflexivity|]. split; [discriminate|]. split; [exact SD|]. split; [exact LA|]. clear SD LA.
  unfold decide in H. cbv zeta in H. remember (c :: user) as u eqn:EQ. clear EQ EU. destruct (e_file E (config E args)) as [text|]; [|injection H as <- <-; left; auto]. right. exists text. split; [reflexivity|].
  pose proof (entries_spec E u (lines_of text)) as M. destruct (match_entries E u (lines_of text)) as [[(x, i)|]| |]; cbn [bind] in H; [|injection H as <- <-; left; auto|discriminate|discriminate].
  right. destruct M as (opts & G & X & I). exists opts. split; [exact G|]. clear G.
  assert (GR : granted opts (if i then PAM_IGNORE else PAM_SUCCESS)) by (unfold granted; destruct i; [left; split; [apply I; reflexivity|reflexivity]|right; split; [intro Y; apply I in Y; discriminate|reflexivity]]).
  assert (EX : e_root E && x && (get_loginuid (e_login E) =? 2 ^ 32 - 1) = true <-> exclusive E opts).
  { unfold exclusive. rewrite !andb_true_iff, Z.eqb_eq, login_spec, X. tauto. }
  assert (EN : e_enabled E && e_enforcing E = true <-> enforcing E) by (unfold enforcing; apply andb_true_iff).
  destruct (e_enabled E && e_enforcing E); cbn [negb] in H; [|injection H as <- <-; left; split; [intro Y; apply EN in Y; discriminate|auto]].
  assert (ENF : enforcing E) by (apply EN; reflexivity). destruct (e_root E && x && (get_loginuid (e_login E) =? 2 ^ 32 - 1)).
  - assert (EXC : exclusive E opts) by (apply EX; reflexivity). destruct (sepermit_lock fuel E st u) as [(b, st1)| |] eqn:LK; cbn [bind] in H; [|discriminate|discriminate]. injection H as <- <-.
    apply lock_spec in LK. destruct LK as [(-> & uid & U & L & A)|(-> & N & SD & _ & K)].
    + right. right. left. split; [exact ENF|]. split; [exact EXC|]. exists uid. split; [exact U|]. split; [exact L|]. split; [exact GR|]. intro ND. destruct (A ND) as (A1 & A2 & A3). split; [exact A1|]. split; [exact A3|]. intro SE. rewrite SE in A2. exact A2.
    + right. right. right. split; [exact ENF|]. split; [exact EXC|]. auto.
  - injection H as <- <-. right. left. split; [exact ENF|]. split; [intro Y; apply EX in Y; discriminate|]. auto.
Qed.
(** A first call is defined if no line of the file has only colons and the status files are well-formed; a fresh handle is enough for the loop to have an end. *)
Theorem sepermit_defined : forall fuel E st args, s_data st = None -> (forall cfg text l, e_file E cfg = Some text -> In l (lines_of text) -> ~ only_colons l) ->
  (forall n ps pid t l, e_look E n = Look ps -> In (pid, Some t) ps -> In l (lines_of t) -> ~ short l) -> exists r st', pam_sepermit fuel E st args = Ok (r, st').
Proof.
  intros fuel E st args ND NC NS. unfold pam_sepermit. destruct (e_user E) as [[|c user]|]; [eauto| |eauto]. unfold decide. cbv zeta. destruct (e_file E (config E args)) as [text|] eqn:F; [|eauto].
  pose proof (entries_spec E (c :: user) (lines_of text)) as M. destruct (match_entries E (c :: user) (lines_of text)) as [[(x, i)|]| |]; cbn [bind]; [|eauto| |destruct M].
  - destruct (negb (e_enabled E && e_enforcing E)); [eauto|]. destruct (e_root E && x && (get_loginuid (e_login E) =? 2 ^ 32 - 1)); [|eauto]. unfold sepermit_lock.
    destruct (e_uid E (c :: user)) as [uid|]; cbn [bind]; [|eauto]. pose proof (check_spec E st uid false) as C. destruct (check_running E st uid false) as [(n, st1)| |]; cbn [bind]; [| |destruct C].
    + destruct C as (_ & C2 & _). destruct (0 <? n); cbn [bind]; [eauto|]. destruct (negb (e_open E)); cbn [bind]; [eauto|]. destruct (e_other E uid); cbn [bind]; [eauto|]. destruct (negb (e_mem E)); cbn [bind]; [eauto|].
      unfold set_data. cbn [s_data]. rewrite C2, ND. cbn [bind]. eauto.
    + destruct C as (ps & pid & t & L & I & W). exfalso. apply W. intros l J. exact (NS _ _ _ _ _ L I J).
  - destruct M as (a & l & b & Q & C & _). exfalso. apply (NC _ _ l F); [rewrite Q; apply in_or_app; right; left; reflexivity|exact C].
Qed.

(** ** Examples and what does not hold *)
Definition fresh : state := mkState [] None 0 [].
Definition conf (t : string) : cstr -> option (list ascii) := fun f => if streq f (lit "/etc/security/sepermit.conf") then Some (lit t) else None.
Definition site (t : string) (lk : nat -> look) : env :=
  mkEnv (Some (lit "bob")) (conf t) false false true true (Some (lit "guest_u")) (fun u g => streq u (lit "bob") && streq g (lit "staff")) true (Some (lit "4294967295"))
    (fun u => if streq u (lit "bob") then Some 1000 else None) lk true (fun _ => false) true true.
Definition status (uid : string) : option (list ascii) := Some (lit "Name:" ++ [c_tab] ++ lit "sh" ++ [c_nl] ++ lit "Uid:" ++ [c_tab] ++ lit uid ++ [c_tab] ++ lit uid ++ [c_nl])%list.
Definition others : nat -> look := fun _ => Look [(1, status "0"); (50, status "1001"); (60, None)].
Example sepermit_example :
  pam_sepermit 5 (site "alice : bob" others) fresh [] = Ok (PAM_IGNORE, fresh) /\
  pam_sepermit 5 (site " bob:ignore " others) fresh [] = Ok (PAM_IGNORE, fresh) /\
  pam_sepermit 5 (site "@staff" others) fresh [lit "debug"] = Ok (PAM_SUCCESS, fresh) /\
  pam_sepermit 5 (site "%guest_u:exclusive" others) fresh [] = Ok (PAM_SUCCESS, mkState [1000] (Some 1000) 1 [Locked 1000]) /\
  pam_sepermit 5 (site "bob:exclusive" (fun _ => Look [(77, status "1000")])) fresh [] = Ok (PAM_AUTH_ERR, mkState [] None 1 []) /\
  pam_sepermit 5 (site "bob" others) fresh [lit "conf=/nowhere"] = Ok (PAM_SERVICE_ERR, fresh).
Proof. vm_compute. auto 10. Qed.
Example sepermit_end_example :
  finish 5 (site "" (fun n => match n with 1%nat => Look [(77, status "1000"); (50, status "1001")] | 2%nat => Look [(78, status "1000")] | _ => Look [] end)) (mkState [1000] (Some 1000) 1 [Locked 1000]) =
    Ok (mkState [] None 4 [Locked 1000; Killed 77; Killed 78; Released 1000]).
Proof. vm_compute. reflexivity. Qed.
(** A line with only colons crashes the module. *)
Theorem sepermit_colons_refuted : exists E, e_file E (lit "/etc/security/sepermit.conf") = Some (lit "::") /\ pam_sepermit 5 E fresh [] = UB.
Proof. exists (site "::" others). vm_compute. auto. Qed.
(** The second call on the same handle, as of an account stack after an authentication stack, succeeds and gives the lock of the first one back. *)
Theorem sepermit_second_refuted : exists E st1 st2, pam_sepermit 5 E fresh [] = Ok (PAM_SUCCESS, st1) /\ In 1000 (s_held st1) /\ pam_sepermit 5 E st1 [] = Ok (PAM_SUCCESS, st2) /\ s_held st2 = [] /\ s_data st2 = Some 1000.
Proof.
  exists (site "bob:exclusive" others). eexists. eexists. split; [vm_compute; reflexivity|]. split; [left; reflexivity|]. split; [vm_compute; reflexivity|]. split; reflexivity.
Qed.
(** If /proc cannot be read, the login is exclusive without anything known about other processes, and the end kills nothing. *)
Theorem sepermit_blind_refuted : exists E st1 st2, (forall n, e_look E n = NoLook) /\ pam_sepermit 5 E fresh [] = Ok (PAM_SUCCESS, st1) /\ In 1000 (s_held st1) /\ finish 5 E st1 = Ok st2 /\ forall pid, ~ In (Killed pid) (s_trace st2).
Proof.
  exists (site "bob:exclusive" (fun _ => NoLook)). eexists. eexists. split; [reflexivity|]. split; [vm_compute; reflexivity|]. split; [left; reflexivity|]. split; [vm_compute; reflexivity|]. intros pid [X|[X|[]]]; discriminate.
Qed.
(** If the data cannot be recorded, the call succeeds, and the end of the transaction neither kills nor gives the lock back. *)
Theorem sepermit_unrecorded_refuted : exists E st1, pam_sepermit 5 E fresh [] = Ok (PAM_SUCCESS, st1) /\ In 1000 (s_held st1) /\ finish 5 E st1 = Ok st1.
Proof.
  exists (let E := site "bob:exclusive" others in mkEnv (e_user E) (e_file E) (e_missing E) (e_vendor E) (e_enabled E) (e_enforcing E) (e_seuser E) (e_group E) (e_root E) (e_login E) (e_uid E) (e_look E) true (e_other E) true false).
  eexists. split; [vm_compute; reflexivity|]. split; [left; reflexivity|]. vm_compute. reflexivity.
Qed.

Print Assumptions sepermit_result.
Print Assumptions sepermit_defined.
Print Assumptions sepermit_end.
Print Assumptions sepermit_colons_refuted.
Print Assumptions sepermit_second_refuted.
Print Assumptions sepermit_blind_refuted.
Print Assumptions sepermit_unrecorded_refuted.
