(** C78: /etc/passwd and /etc/shadow are rewritten. *)
From Coq Require Import String Ascii List Arith NArith ZArith Bool Lia.
From Verif Require Import Base Num_Model Str_Model Str_Facts Opt_Model Unix_Model Unixset_Model Unixsave_Props.
From Verif Require Pwhist_Model.
Import ListNotations.
Local Open Scope Z_scope.

(** ** Spec *)
(** What becomes of an entry: the user gets the new hash, everything else stays. *)
Definition new_pw (u h : cstr) (e e' : pwrec) : Prop :=
  r_name e' = r_name e /\ r_uid e' = r_uid e /\ r_gid e' = r_gid e /\ r_gecos e' = r_gecos e /\ r_dir e' = r_dir e /\ r_shell e' = r_shell e /\
  (r_name e = u -> r_passwd e' = h) /\ (r_name e <> u -> r_passwd e' = r_passwd e).
Definition new_sp (u h : cstr) (day : Z) (e e' : sprec) : Prop :=
  s_name e' = s_name e /\ s_min e' = s_min e /\ s_max e' = s_max e /\ s_warn e' = s_warn e /\ s_inact e' = s_inact e /\ s_expire e' = s_expire e /\ s_flag e' = s_flag e /\
  (s_name e = u -> s_passwd e' = h /\ s_lstchg e' = day) /\ (s_name e <> u -> s_passwd e' = s_passwd e /\ s_lstchg e' = s_lstchg e).
(** A user new to the shadow file: no ageing. *)
Definition first_sp (u h : cstr) (day : Z) : sprec := mkSprec u h day (-1) (-1) (-1) (-1) (-1) ULONG_MAX.
(** The text of some entries. *)
Inductive written {A : Type} (put : A -> option (list ascii)) : list A -> list ascii -> Prop :=
| written_none : written put [] []
| written_more : forall e es t t', put e = Some t -> written put es t' -> written put (e :: es) (t ++ t').
(** Days since 1970; the first day counts as never. *)
Definition day_of (now day : Z) : Prop := (86400 <= now /\ 86400 * day <= now < 86400 * (day + 1)) \/ (0 <= now < 86400 /\ day = -1).
Definition keeps (path : cstr) (f : Pwhist_Model.file) (t : list ascii) (d d' : Pwhist_Model.disk) : Prop :=
  (exists f', d' path = Some f' /\ Pwhist_Model.f_data f' = t /\ Pwhist_Model.f_mode f' = Pwhist_Model.f_mode f /\ Pwhist_Model.f_uid f' = Pwhist_Model.f_uid f /\ Pwhist_Model.f_gid f' = Pwhist_Model.f_gid f) /\
  forall q, q <> path -> d' q = d q.
(** Nothing was changed, but for a temporary file that may stay. *)
Definition untouched (I : io) (d d' : Pwhist_Model.disk) : Prop := d' = d \/ i_fdopen I = false /\ forall q, q <> i_tmp I -> d' q = d q.
(** All the calls work. *)
Definition works (I : io) : Prop :=
  i_mkstemp I = true /\ i_fdopen I = true /\ i_open I = true /\ i_stat I = true /\ i_chown I = true /\ i_chmod I = true /\ (forall k, i_put I k = true) /\ i_add I = true /\ i_sync I = true /\ i_close I = true /\ i_rename I = true.

(** ** Proofs *)
Lemma put_keeps : forall path f t d, keeps path f t d (Pwhist_Model.put path (Some (Pwhist_Model.mkFile t (Pwhist_Model.f_mode f) (Pwhist_Model.f_uid f) (Pwhist_Model.f_gid f))) d).
Proof.
  intros path f t d. split.
  - eexists. unfold Pwhist_Model.put. rewrite streq_refl. split; [reflexivity|]. cbn. auto.
  - intros q N. unfold Pwhist_Model.put. destruct (streq q path) eqn:E; [apply streq_eq in E; contradiction|reflexivity].
Qed.
Lemma replaced_or_not : forall I d path body r d', replace I d path body = Ok (r, d') ->
  (r = PAM_SUCCESS /\ exists f t, d path = Some f /\ body (Pwhist_Model.f_data f) = Ok (false, t) /\ keeps path f t d d') \/ (r = PAM_AUTHTOK_ERR /\ untouched I d d').
Proof.
  intros I d path body r d' H. apply replaced in H. destruct H as [(-> & f & t & A & B & ->)|(-> & H)].
  - left. split; [reflexivity|]. exists f, t. split; [exact A|]. split; [exact B|]. apply put_keeps.
  - right. split; [reflexivity|]. destruct H as [->|(F & ->)]; [left; reflexivity|right]. split; [exact F|]. intros q N. unfold Pwhist_Model.put. destruct (streq q (i_tmp I)) eqn:E; [apply streq_eq in E; contradiction|reflexivity].
Qed.
Lemma replace_works : forall I d path body f t, works I -> d path = Some f -> body (Pwhist_Model.f_data f) = Ok (false, t) -> exists d', replace I d path body = Ok (PAM_SUCCESS, d').
Proof.
  intros I d path body f t (W1 & W2 & W3 & W4 & W5 & W6 & _ & _ & W7 & W8 & W9) A B. unfold replace. rewrite W1, W2, W3, W4, W5, W6, A. cbn [negb orb]. rewrite B. cbn [bind orb]. rewrite W7, W8, W9. cbn [negb orb]. eauto.
Qed.
Lemma replace_defined : forall I d path (body : list ascii -> bool * list ascii), exists r d', replace I d path (fun x => Ok (body x)) = Ok (r, d').
Proof.
  intros I d path body. unfold replace. destruct (negb (i_mkstemp I)); [eauto|]. destruct (negb (i_fdopen I)); [eauto|]. destruct (if i_open I then d path else None) as [f|]; [|eauto]. destruct (negb (i_stat I) || negb (i_chown I) || negb (i_chmod I)); [eauto|].
  destruct (body (Pwhist_Model.f_data f)) as [err t]. cbn [bind]. destruct (err || negb (i_sync I) || negb (i_close I) || negb (i_rename I)); eauto.
Qed.
Lemma passwd_loop_meaning : forall I L u h es n err t, passwd_loop I L u h n err es = (false, t) ->
  (err = false \/ exists e, In e es /\ r_name e = u) /\ exists es', Forall2 (new_pw u h) es es' /\ written (l_putpw L) es' t.
Proof.
  intros I L u h es. induction es as [|e es IH]; intros n err t H; cbn [passwd_loop] in H.
  - injection H as -> <-. split; [left; reflexivity|]. exists []. split; constructor.
  - set (e' := if streq (r_name e) u then mkPwrec (r_name e) h (r_uid e) (r_gid e) (r_gecos e) (r_dir e) (r_shell e) else e) in *. assert (N : new_pw u h e e').
    { unfold e', new_pw. destruct (streq (r_name e) u) eqn:S; cbn; do 6 (split; [reflexivity|]).
      - apply streq_eq in S. split; [reflexivity|congruence].
      - split; [|reflexivity]. intro X. rewrite X, streq_refl in S. discriminate. }
    destruct (i_put I n); [|discriminate]. destruct (l_putpw L e') as [o|] eqn:P; [|discriminate]. destruct (passwd_loop I L u h (S n) (if streq (r_name e) u then false else err) es) as [err' t'] eqn:E. injection H as -> <-.
    destruct (IH _ _ _ E) as (X & es' & F & W). split.
    + destruct (streq (r_name e) u) eqn:S; [right; exists e; split; [left; reflexivity|apply streq_eq; exact S]|]. destruct X as [X|(y & Y & Z0)]; [left; exact X|right; exists y; split; [right; exact Y|exact Z0]].
    + exists (e' :: es'). split; constructor; assumption.
Qed.
Lemma passwd_loop_works : forall I L u h es n err, (forall k, i_put I k = true) -> (forall e, l_putpw L e <> None) -> err = false \/ (exists e, In e es /\ r_name e = u) -> exists t, passwd_loop I L u h n err es = (false, t).
Proof.
  intros I L u h es. induction es as [|e es IH]; intros n err P G X; cbn [passwd_loop].
  - destruct X as [->|(e & [] & _)]. eauto.
  - rewrite P. destruct (l_putpw L _) as [o|] eqn:E; [|exfalso; eapply G; exact E]. destruct (IH (S n) (if streq (r_name e) u then false else err) P G) as (t & ->); [|eauto].
    destruct (streq (r_name e) u) eqn:S; [left; reflexivity|]. destruct X as [->|(y & [<-|Y] & Z0)]; [left; reflexivity|rewrite Z0, streq_refl in S; discriminate|right; exists y; auto].
Qed.
(** /etc/passwd: only the password of the user changes; a user who is not in the file is an error. *)
Theorem passwd_updated : forall I L d u h, exists r d', update_passwd I L d u h = Ok (r, d') /\
  (r = PAM_SUCCESS -> exists f t es', d PASSWD = Some f /\ keeps PASSWD f t d d' /\ Forall2 (new_pw u h) (l_getpw L (Pwhist_Model.f_data f)) es' /\ written (l_putpw L) es' t /\
     exists e, In e (l_getpw L (Pwhist_Model.f_data f)) /\ r_name e = u) /\
  (r <> PAM_SUCCESS -> r = PAM_AUTHTOK_ERR /\ untouched I d d').
Proof.
  intros I L d u h. unfold update_passwd. destruct (replace_defined I d PASSWD (fun data => passwd_loop I L u h 0 true (l_getpw L data))) as (r & d' & E). exists r, d'. split; [exact E|]. apply replaced_or_not in E. destruct E as [(-> & f & t & A & B & K)|(-> & U)].
  - split; [|congruence]. intros _. injection B as B. apply passwd_loop_meaning in B. destruct B as ([X|X] & es' & F & W); [discriminate|]. exists f, t, es'. auto 10.
  - split; [discriminate|auto].
Qed.
Theorem passwd_updates : forall I L d u h f, works I -> (forall e, l_putpw L e <> None) -> d PASSWD = Some f -> (exists e, In e (l_getpw L (Pwhist_Model.f_data f)) /\ r_name e = u) ->
  exists d', update_passwd I L d u h = Ok (PAM_SUCCESS, d').
Proof.
  intros I L d u h f W G A X. destruct (passwd_loop_works I L u h (l_getpw L (Pwhist_Model.f_data f)) 0 true ltac:(apply W) G (or_intror X)) as (t & E). unfold update_passwd. apply (replace_works I d PASSWD _ f t W A). rewrite E. reflexivity.
Qed.

Lemma today_day : forall now, 0 <= now -> day_of now (today now).
Proof.
  intros now N. unfold today, day_of. rewrite Z.quot_div_nonneg by lia. pose proof (Z.div_mod now 86400 ltac:(lia)). pose proof (Z.mod_pos_bound now 86400 ltac:(lia)). destruct (Z.eqb_spec (now / 86400) 0); lia.
Qed.
Lemma shadow_loop_meaning : forall I L now u h es n wrote err w t, shadow_loop I L now u h n wrote es = (err, w, t) -> err = false ->
  (w = true <-> wrote = true \/ exists e, In e es /\ s_name e = u) /\ exists es', Forall2 (new_sp u h (today now)) es es' /\ written (l_putsp L) es' t.
Proof.
  intros I L now u h es. induction es as [|e es IH]; intros n wrote err w t H EE; cbn [shadow_loop] in H.
  - injection H as <- <- <-. split; [split; [auto|intros [X|(e & [] & _)]; exact X]|]. exists []. split; constructor.
  - set (e' := if streq (s_name e) u then mkSprec (s_name e) h (today now) (s_min e) (s_max e) (s_warn e) (s_inact e) (s_expire e) (s_flag e) else e) in *. assert (N : new_sp u h (today now) e e').
    { unfold e', new_sp. destruct (streq (s_name e) u) eqn:S; cbn [s_name s_passwd s_lstchg s_min s_max s_warn s_inact s_expire s_flag]; do 7 (split; [reflexivity|]).
      - apply streq_eq in S. split; [auto|congruence].
      - split; [|auto]. intro X. rewrite X, streq_refl in S. discriminate. }
    destruct (i_put I n); [|injection H as <- _ _; discriminate]. destruct (l_putsp L e') as [o|] eqn:P; [|injection H as <- _ _; discriminate]. destruct (shadow_loop I L now u h (S n) (wrote || streq (s_name e) u) es) as [[err' w'] t'] eqn:E. injection H as -> -> <-.
    destruct (IH _ _ _ _ _ E EE) as (X & es' & F & W). split.
    + rewrite X, orb_true_iff, streq_eq. split.
      * intros [[Y|Y]|(y & Y & Z0)]; [left; exact Y|right; exists e; split; [left; reflexivity|exact Y]|right; exists y; split; [right; exact Y|exact Z0]].
      * intros [Y|(y & [<-|Y] & Z0)]; [auto|auto|right; exists y; auto].
    + exists (e' :: es'). split; constructor; assumption.
Qed.
Lemma written_app : forall A (put : A -> option (list ascii)) es t e o, written put es t -> put e = Some o -> written put (es ++ [e]) (t ++ o).
Proof.
  intros A put es t e o W P. induction W as [|x es a b PX W IH]; cbn [app].
  - rewrite <- (app_nil_r o). constructor; [exact P|constructor].
  - rewrite <- app_assoc. constructor; assumption.
Qed.
(** /etc/shadow: only the password and the day of change of the user change; a user who is not there is added without ageing. *)
Theorem shadow_updated : forall I L now d u h, 0 <= now -> exists day r d', day_of now day /\ update_shadow I L now d u h = Ok (r, d') /\
  (r = PAM_SUCCESS -> exists f t es', d SHADOW_FILE = Some f /\ keeps SHADOW_FILE f t d d' /\ Forall2 (new_sp u h day) (l_getsp L (Pwhist_Model.f_data f)) es' /\
     ((exists e, In e (l_getsp L (Pwhist_Model.f_data f)) /\ s_name e = u) /\ written (l_putsp L) es' t \/
      (forall e, In e (l_getsp L (Pwhist_Model.f_data f)) -> s_name e <> u) /\ written (l_putsp L) (es' ++ [first_sp u h day]) t)) /\
  (r <> PAM_SUCCESS -> r = PAM_AUTHTOK_ERR /\ untouched I d d').
Proof.
  intros I L now d u h N. exists (today now).
  set (body := fun data => let '(err, wrote, t) := shadow_loop I L now u h 0 false (l_getsp L data) in
    if negb wrote && negb err then match (if i_add I then l_putsp L (first_sp u h (today now)) else None) with Some out => (false, (t ++ out)%list) | None => (true, t) end else (err, t)).
  assert (EQ : update_shadow I L now d u h = replace I d SHADOW_FILE (fun data => Ok (body data))).
  { unfold update_shadow, replace, body, first_sp. destruct (negb (i_mkstemp I)); [reflexivity|]. destruct (negb (i_fdopen I)); [reflexivity|]. destruct (if i_open I then d SHADOW_FILE else None) as [f|]; [|reflexivity]. destruct (negb (i_stat I) || negb (i_chown I) || negb (i_chmod I)); [reflexivity|].
    destruct (shadow_loop I L now u h 0 false (l_getsp L (Pwhist_Model.f_data f))) as [[err w] t]. destruct (negb w && negb err); [|reflexivity]. destruct (if i_add I then _ else None); reflexivity. }
  rewrite EQ. destruct (replace_defined I d SHADOW_FILE body) as (r & d' & E). exists r, d'. split; [apply today_day; exact N|]. split; [exact E|]. apply replaced_or_not in E. destruct E as [(-> & f & t & A & B & K)|(-> & U)].
  - split; [|congruence]. intros _. injection B as B. unfold body in B. destruct (shadow_loop I L now u h 0 false (l_getsp L (Pwhist_Model.f_data f))) as [[err w] t'] eqn:E. destruct err; [rewrite andb_false_r in B; discriminate|].
    destruct (shadow_loop_meaning _ _ _ _ _ _ _ _ _ _ _ E eq_refl) as (X & es' & F & W). destruct w; cbn [negb andb] in B.
    + injection B as <-. exists f, t', es'. split; [exact A|]. split; [exact K|]. split; [exact F|]. left. split; [|exact W]. destruct (proj1 X eq_refl) as [Y|Y]; [discriminate|exact Y].
    + destruct (i_add I); [|discriminate]. destruct (l_putsp L (first_sp u h (today now))) as [o|] eqn:P; [|discriminate]. injection B as <-. exists f, (t' ++ o)%list, es'. split; [exact A|]. split; [exact K|]. split; [exact F|]. right. split.
      * intros e I0 S. assert (Y : false = true) by (apply X; right; exists e; auto). discriminate.
      * apply written_app; assumption.
  - split; [discriminate|auto].
Qed.
Lemma shadow_loop_works : forall I L now u h es n w, (forall k, i_put I k = true) -> (forall e, l_putsp L e <> None) -> exists w' t, shadow_loop I L now u h n w es = (false, w', t).
Proof.
  intros I L now u h es. induction es as [|e es IH]; intros n w P G; cbn [shadow_loop]; [eauto|]. rewrite P. destruct (l_putsp L _) as [o|] eqn:E; [|exfalso; eapply G; exact E]. destruct (IH (S n) (w || streq (s_name e) u) P G) as (w' & t & ->). eauto.
Qed.
Theorem shadow_updates : forall I L now d u h f, works I -> (forall e, l_putsp L e <> None) -> d SHADOW_FILE = Some f -> exists d', update_shadow I L now d u h = Ok (PAM_SUCCESS, d').
Proof.
  intros I L now d u h f W G A. destruct (shadow_loop_works I L now u h (l_getsp L (Pwhist_Model.f_data f)) 0 false ltac:(apply W) G) as (w & t & E). unfold update_shadow. assert (AD : i_add I = true) by apply W. destruct w.
  - apply (replace_works I d SHADOW_FILE _ f t W A). rewrite E. reflexivity.
  - destruct (l_putsp L (mkSprec u h (today now) (-1) (-1) (-1) (-1) (-1) ULONG_MAX)) as [o|] eqn:P; [|exfalso; eapply G; exact P]. apply (replace_works I d SHADOW_FILE _ f (t ++ o)%list W A). rewrite E. cbn [negb andb]. rewrite AD. reflexivity.
Qed.
(** With a C library that reads what it writes: the entries afterwards. *)
Theorem entries_afterwards : forall I L now d u h d', 0 <= now -> (forall es t, written (l_putsp L) es t -> l_getsp L t = es) -> update_shadow I L now d u h = Ok (PAM_SUCCESS, d') ->
  exists f f' day, d SHADOW_FILE = Some f /\ d' SHADOW_FILE = Some f' /\ day_of now day /\
    (forall e', In e' (l_getsp L (Pwhist_Model.f_data f')) -> s_name e' = u -> s_passwd e' = h /\ s_lstchg e' = day) /\ (exists e', In e' (l_getsp L (Pwhist_Model.f_data f')) /\ s_name e' = u) /\
    (forall e', s_name e' <> u -> (In e' (l_getsp L (Pwhist_Model.f_data f')) <-> In e' (l_getsp L (Pwhist_Model.f_data f)))).
Proof.
  intros I L now d u h d' N RT E. destruct (shadow_updated I L now d u h N) as (day & r & d2 & D & E2 & S & _). rewrite E in E2. injection E2 as <- <-. destruct (S eq_refl) as (f & t & es' & A & ((f' & A' & T & _) & _) & F & X). exists f, f', day. split; [exact A|]. split; [exact A'|]. split; [exact D|].
  assert (OWN : forall e', In e' es' -> s_name e' = u -> s_passwd e' = h /\ s_lstchg e' = day).
  { clear - F. induction F as [|e e' l l' (N & _ & _ & _ & _ & _ & _ & O & _) F IH]; intros y Y Z0; [destruct Y|]. destruct Y as [<-|Y]; [apply O; congruence|apply IH; assumption]. }
  assert (OTH : forall y, s_name y <> u -> (In y es' <-> In y (l_getsp L (Pwhist_Model.f_data f)))).
  { clear - F. induction F as [|e e' l l' (N & M1 & M2 & M3 & M4 & M5 & M6 & O & P) F IH]; intros y Z0; [reflexivity|]. cbn [In]. rewrite IH by exact Z0.
    assert (Q : s_name e <> u -> e' = e) by (intro S; destruct (P S); destruct e, e'; cbn in *; congruence).
    split; (intros [<-|Y]; [left|right; exact Y]); [symmetry; apply Q; congruence|apply Q; exact Z0]. }
  destruct X as [((e & IE & EU) & W)|(NO & W)]; rewrite T, (RT _ _ W).
  - split; [exact OWN|]. split; [|exact OTH]. clear - F IE EU. induction F as [|x x' l l' (N & _) F IH]; [destruct IE|]. destruct IE as [->|IE]; [exists x'; split; [left; reflexivity|congruence]|]. destruct (IH IE) as (y & Y & Z0). exists y. split; [right; exact Y|exact Z0].
  - split; [intros y Y Z0; apply in_app_or in Y; destruct Y as [Y|[<-|[]]]; [apply OWN; assumption|split; reflexivity]|]. split; [exists (first_sp u h day); split; [apply in_or_app; right; left; reflexivity|reflexivity]|].
    intros y Z0. rewrite in_app_iff. rewrite OTH by exact Z0. split; [intros [Y|[<-|[]]]; [exact Y|exfalso; apply Z0; reflexivity]|auto].
Qed.

(** ** Examples *)
Definition txt (fs : list cstr) : option (list ascii) := Some (Pwhist_Facts.join ":"%char fs ++ [c_nl])%list.
Definition number (s : cstr) : Z := fst (strtol s).
(** A C library that keeps to the fields; lines that are no entries are passed over. *)
Definition small : libc := mkLibc
  (fun t => flat_map (fun l => match fields ":"%char (removelast l) with [a; b; c; d; e; f; g] => [mkPwrec a b (number c) (number d) e f g] | _ => [] end) (lines_of t))
  (fun e => txt [r_name e; r_passwd e; decimal (r_uid e); decimal (r_gid e); r_gecos e; r_dir e; r_shell e])
  (fun t => flat_map (fun l => match fields ":"%char (removelast l) with [a; b; c; _; _; _; _; _; _] => [mkSprec a b (number c) (-1) (-1) (-1) (-1) (-1) 0] | _ => [] end) (lines_of t))
  (fun e => txt [s_name e; s_passwd e; decimal (s_lstchg e); []; []; []; []; []; []]).
Definition etc (p : list cstr) (s : list cstr) : Pwhist_Model.disk := fun q =>
  if streq q PASSWD then Some (Pwhist_Model.mkFile (text_of p) 420 0 0) else if streq q SHADOW_FILE then Some (Pwhist_Model.mkFile (text_of s) 256 0 42) else None.
Definition see (path : cstr) (x : res (Z * Pwhist_Model.disk)) : res (Z * option (list ascii * Z * Z)) :=
  bind x (fun '(r, d) => Ok (r, option_map (fun f => (Pwhist_Model.f_data f, Pwhist_Model.f_mode f, Pwhist_Model.f_gid f)) (d path))).
Example files_example :
  let d := etc [lit "# users"; lit "ann:x:1:1:Ann:/home/ann:/bin/sh"; lit "bob:old:2:2::/:"] [lit "ann:$6$a:100::::::"; lit "cat:!:100::::::"] in
  see PASSWD (update_passwd all_well small d (lit "bob") (lit "new")) = Ok (0, Some (text_of [lit "ann:x:1:1:Ann:/home/ann:/bin/sh"; lit "bob:new:2:2::/:"], 420, 0)) /\
  see PASSWD (update_passwd all_well small d (lit "cat") (lit "new")) = Ok (20, Some (text_of [lit "# users"; lit "ann:x:1:1:Ann:/home/ann:/bin/sh"; lit "bob:old:2:2::/:"], 420, 0)) /\
  see SHADOW_FILE (update_shadow all_well small 1728000 d (lit "ann") (lit "new")) = Ok (0, Some (text_of [lit "ann:new:20::::::"; lit "cat:!:100::::::"], 256, 42)) /\
  see SHADOW_FILE (update_shadow all_well small 1728000 d (lit "bob") (lit "new")) = Ok (0, Some (text_of [lit "ann:$6$a:100::::::"; lit "cat:!:100::::::"; lit "bob:new:20::::::"], 256, 42)).
Proof. vm_compute. repeat split. Qed.
Example works_example : works all_well /\ (forall e, l_putpw small e <> None) /\ (forall e, l_putsp small e <> None).
Proof. split; [repeat split|split; discriminate]. Qed.
(** A library as in [entries_afterwards]: one entry to a file. *)
Definition unary : libc := mkLibc (fun _ => []) (fun _ => None) (fun t => map (fun _ => mkSprec (lit "ann") (lit "new") 20 0 0 0 0 0 0) t)
  (fun e => if streq (s_name e) (lit "ann") && streq (s_passwd e) (lit "new") && (s_lstchg e =? 20) && (s_min e =? 0) && (s_max e =? 0) && (s_warn e =? 0) && (s_inact e =? 0) && (s_expire e =? 0) && (s_flag e =? 0) then Some (lit "+") else None).
Example reads_back_example : (forall es t, written (l_putsp unary) es t -> l_getsp unary t = es) /\
  exists d', update_shadow all_well unary 1728000 (etc [] [lit "+"; lit "+"]) (lit "ann") (lit "new") = Ok (PAM_SUCCESS, d').
Proof.
  split; [|eexists; vm_compute; reflexivity]. intros es t W. induction W as [|e es t t' P W IH]; [reflexivity|]. unfold unary, l_putsp in P.
  destruct (streq (s_name e) (lit "ann") && streq (s_passwd e) (lit "new") && (s_lstchg e =? 20) && (s_min e =? 0) && (s_max e =? 0) && (s_warn e =? 0) && (s_inact e =? 0) && (s_expire e =? 0) && (s_flag e =? 0)) eqn:E; [|discriminate].
  injection P as <-. rewrite !andb_true_iff, !streq_eq, !Z.eqb_eq in E. destruct e as [a b c x y z v w o]. cbn in E. destruct E as ((((((((-> & ->) & ->) & ->) & ->) & ->) & ->) & ->) & ->). cbn [app map l_getsp unary] in *. rewrite IH. reflexivity.
Qed.

(** ** What does not hold *)
(** Lines that are no entries are lost. *)
Theorem comments_kept_refuted : exists d d', update_passwd all_well small d (lit "bob") (lit "new") = Ok (PAM_SUCCESS, d') /\
  option_map Pwhist_Model.f_data (d PASSWD) = Some (text_of [lit "# users"; lit "bob:old:2:2::/:"]) /\ option_map Pwhist_Model.f_data (d' PASSWD) = Some (text_of [lit "bob:new:2:2::/:"]).
Proof. exists (etc [lit "# users"; lit "bob:old:2:2::/:"] []). eexists. split; [vm_compute; reflexivity|]. split; vm_compute; reflexivity. Qed.

Print Assumptions passwd_updated.
Print Assumptions passwd_updates.
Print Assumptions shadow_updated.
Print Assumptions shadow_updates.
Print Assumptions entries_afterwards.
