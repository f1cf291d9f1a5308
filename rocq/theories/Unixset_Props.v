(** C79, C80: changing a password with unix_update and with pam_unix. *)
From Coq Require Import String Ascii List Arith NArith ZArith Bool Lia.
From Verif Require Import Base Num_Model Str_Model Str_Facts Opt_Model Inline_Model Inline_Props Unixctl_Model Unixctl_Props Unix_Model Md5_Model Unixset_Model.
From Verif Require Import Unixage_Props Unixpw_Props Unixauth_Props Md5crypt_Props Unixhash_Props Unixsave_Props Unixfile_Props.
From Verif Require Pwhist_Model.
Import ListNotations.
Local Open Scope Z_scope.

(** ** Spec *)
(** The user gets the hash [h] in the shadow file. *)
Definition sp_change (L : libc) (u h : cstr) (day : Z) (d d' : disk) : Prop :=
  exists f f' es', d SHADOW_FILE = Some f /\ d' SHADOW_FILE = Some f' /\ Pwhist_Model.f_mode f' = Pwhist_Model.f_mode f /\ Pwhist_Model.f_uid f' = Pwhist_Model.f_uid f /\ Pwhist_Model.f_gid f' = Pwhist_Model.f_gid f /\
    Forall2 (new_sp u h day) (l_getsp L (Pwhist_Model.f_data f)) es' /\
    ((exists e, In e (l_getsp L (Pwhist_Model.f_data f)) /\ s_name e = u) /\ written (l_putsp L) es' (Pwhist_Model.f_data f') \/
     (forall e, In e (l_getsp L (Pwhist_Model.f_data f)) -> s_name e <> u) /\ written (l_putsp L) (es' ++ [first_sp u h day]) (Pwhist_Model.f_data f')).
(** The user gets the hash [h] in /etc/passwd. *)
Definition pw_change (L : libc) (u h : cstr) (d d' : disk) : Prop :=
  exists f f' es', d PASSWD = Some f /\ d' PASSWD = Some f' /\ Pwhist_Model.f_mode f' = Pwhist_Model.f_mode f /\ Pwhist_Model.f_uid f' = Pwhist_Model.f_uid f /\ Pwhist_Model.f_gid f' = Pwhist_Model.f_gid f /\
    Forall2 (new_pw u h) (l_getpw L (Pwhist_Model.f_data f)) es' /\ written (l_putpw L) es' (Pwhist_Model.f_data f') /\ exists e, In e (l_getpw L (Pwhist_Model.f_data f)) /\ r_name e = u.
(** The hash [h] is stored for [u]: in the shadow file if it is used or to be used, and then the entry of /etc/passwd refers to it. No other file
    changes but that of the old passwords. *)
Record set_to (L : libc) (now : Z) (pw : pwent) (u h : cstr) (shadow saves : bool) (d d' : disk) : Prop := mkSet {
  set_shadow : shadow || shadow_mark pw = true -> exists day, day_of now day /\ sp_change L u h day d d';
  set_mark : shadow || shadow_mark pw = true -> if shadow_mark pw then d' PASSWD = d PASSWD else pw_change L u (lit "x") d d';
  set_passwd : shadow || shadow_mark pw = false -> pw_change L u h d d' /\ d' SHADOW_FILE = d SHADOW_FILE;
  set_others : forall q, q <> PASSWD -> q <> SHADOW_FILE -> q <> OPASSWD \/ saves = false -> d' q = d q }.
(** The lock is held while files are written: the old passwords first, then the shadow file, then /etc/passwd. *)
Definition under_lock (w : list step) : Prop :=
  exists ps, w = (Lock :: map Write ps ++ [Unlock])%list /\ In ps [[]; [OPASSWD]; [SHADOW_FILE]; [PASSWD]; [OPASSWD; SHADOW_FILE]; [OPASSWD; PASSWD]; [SHADOW_FILE; PASSWD]; [OPASSWD; SHADOW_FILE; PASSWD]].

(** ** Storing *)
Lemma paths : OPASSWD <> PASSWD /\ OPASSWD <> SHADOW_FILE /\ PASSWD <> SHADOW_FILE.
Proof. repeat split; discriminate. Qed.
Lemma passwd_step : forall I L d u h d', update_passwd I L d u h = Ok (0, d') -> pw_change L u h d d' /\ forall q, q <> PASSWD -> d' q = d q.
Proof.
  intros I L d u h d' E. destruct (passwd_updated I L d u h) as (r & d2 & E2 & S & _). rewrite E in E2. injection E2 as <- <-. destruct (S eq_refl) as (f & t & es' & A & ((f' & B & C & D & F & G) & K) & H & W & X). split; [|exact K].
  exists f, f', es'. subst t. auto 10.
Qed.
Lemma shadow_step : forall I L now d u h d', 0 <= now -> update_shadow I L now d u h = Ok (0, d') -> (exists day, day_of now day /\ sp_change L u h day d d') /\ forall q, q <> SHADOW_FILE -> d' q = d q.
Proof.
  intros I L now d u h d' N E. destruct (shadow_updated I L now d u h N) as (day & r & d2 & DD & E2 & S & _). rewrite E in E2. injection E2 as <- <-. destruct (S eq_refl) as (f & t & es' & A & ((f' & B & C & D & F & G) & K) & H & X). split; [|exact K].
  exists day. split; [exact DD|]. exists f, f', es'. subst t. auto 10.
Qed.
Lemma save_step : forall md5 I uid d u old hm d', save_old md5 I uid d u old hm = Ok (0, d') -> forall q, q <> OPASSWD \/ (match old with Some _ => 0 <=? hm | None => false end) = false -> d' q = d q.
Proof.
  intros md5 I uid d u old hm d' E q Q. unfold save_old in E. destruct (Z.ltb_spec hm 0); [injection E as <-; reflexivity|]. destruct old as [p|]; [|injection E as <-; reflexivity]. destruct Q as [Q|Q]; [|apply Z.leb_gt in Q; lia].
  apply replaced in E. destruct E as [(_ & f & t & _ & _ & ->)|(X & _)]; [|discriminate]. unfold Pwhist_Model.put. destruct (streq q OPASSWD) eqn:S; [apply streq_eq in S; contradiction|reflexivity].
Qed.
Lemma sp_change_ext : forall L u h day d1 d2 d d', d1 SHADOW_FILE = d SHADOW_FILE -> d2 SHADOW_FILE = d' SHADOW_FILE -> sp_change L u h day d1 d2 -> sp_change L u h day d d'.
Proof. intros L u h day d1 d2 d d' A B (f & f' & es' & X & Y & Z0). exists f, f', es'. rewrite <- A, <- B. auto. Qed.
Lemma pw_change_ext : forall L u h d1 d2 d d', d1 PASSWD = d PASSWD -> d2 PASSWD = d' PASSWD -> pw_change L u h d1 d2 -> pw_change L u h d d'.
Proof. intros L u h d1 d2 d d' A B (f & f' & es' & X & Y & Z0). exists f, f', es'. rewrite <- A, <- B. auto. Qed.
Lemma store_sets : forall md5 E d pw u old h shadow remember d' w, 0 <= n_now E -> store md5 E d pw u old h shadow remember = Ok (PAM_SUCCESS, d', w) ->
  set_to (n_libc E) (n_now E) pw u h shadow (match old with Some _ => 0 <=? remember | None => false end) d d'.
Proof.
  intros md5 E d pw u old h shadow remember d' w N H. unfold store in H. rewrite is_shadowed_mark in H. destruct (save_old _ _ _ d u old remember) as [[r1 d1]| |] eqn:ES; cbn [bind] in H; try discriminate. destruct (Z.eqb_spec r1 0) as [->|]; cbn [negb] in H; [|discriminate].
  pose proof (save_step _ _ _ _ _ _ _ _ ES) as S1. destruct paths as (P1 & P2 & P3). pose proof (S1 PASSWD (or_introl (fun x => P1 (eq_sym x)))) as S1P. pose proof (S1 SHADOW_FILE (or_introl (fun x => P2 (eq_sym x)))) as S1S.
  destruct (shadow || shadow_mark pw) eqn:SH.
  - destruct (update_shadow (n_shadow E) (n_libc E) (n_now E) d1 u h) as [[r2 d2]| |] eqn:EU; cbn [bind] in H; try discriminate. destruct (Z.eqb_spec r2 0) as [->|]; cbn [andb] in H; [|injection H; contradiction].
    destruct (shadow_step _ _ _ _ _ _ _ N EU) as ((day & DD & SC) & K2). destruct (shadow_mark pw) eqn:SM; cbn [negb] in H.
    + injection H as <- _. constructor; rewrite ?SH, ?SM.
      * intros _. exists day. split; [exact DD|]. apply (sp_change_ext _ _ _ _ d1 d2); auto.
      * intros _. rewrite K2 by exact P3. exact S1P.
      * intros X. congruence.
      * intros q Q1 Q2 Q3. rewrite K2 by exact Q2. apply S1. exact Q3.
    + destruct (update_passwd (n_passwd E) (n_libc E) d2 u (lit "x")) as [[r3 d3]| |] eqn:EP; cbn [bind] in H; try discriminate. injection H as -> -> _. destruct (passwd_step _ _ _ _ _ _ EP) as (PC & K3). constructor; rewrite ?SH, ?SM.
      * intros _. exists day. split; [exact DD|]. apply (sp_change_ext _ _ _ _ d1 d2); [exact S1S|rewrite K3; [reflexivity|intro X; apply P3; auto]|exact SC].
      * intros _. apply (pw_change_ext _ _ _ d2 d'); [rewrite K2 by exact P3; exact S1P|reflexivity|exact PC].
      * intros X. congruence.
      * intros q Q1 Q2 Q3. rewrite K3 by exact Q1. rewrite K2 by exact Q2. apply S1. exact Q3.
  - destruct (update_passwd (n_passwd E) (n_libc E) d1 u h) as [[r3 d3]| |] eqn:EP; cbn [bind] in H; try discriminate. injection H as -> -> _. destruct (passwd_step _ _ _ _ _ _ EP) as (PC & K3). constructor; rewrite ?SH; try (intros X; discriminate X).
    + intros _. split; [apply (pw_change_ext _ _ _ d1 d'); [exact S1P|reflexivity|exact PC]|]. rewrite K3 by (intro X; apply P3; auto). exact S1S.
    + intros q Q1 Q2 Q3. rewrite K3 by exact Q1. apply S1. exact Q3.
Qed.
Lemma store_locked : forall md5 E d pw u old h shadow remember r d' w, store md5 E d pw u old h shadow remember = Ok (r, d', w) -> under_lock (Lock :: w ++ [Unlock]).
Proof.
  intros md5 E d pw u old h shadow remember r d' w H. unfold store in H. destruct (save_old _ _ _ d u old remember) as [[r1 d1]| |]; cbn [bind] in H; try discriminate.
  set (w0 := match old with Some _ => if remember <? 0 then [] else [Write OPASSWD] | None => [] end) in *. assert (W0 : w0 = [] \/ w0 = [Write OPASSWD]) by (unfold w0; destruct old; [destruct (remember <? 0)|]; auto).
  assert (G : forall ps, w = (w0 ++ map Write ps)%list -> In ps [[]; [SHADOW_FILE]; [PASSWD]; [SHADOW_FILE; PASSWD]] -> under_lock (Lock :: w ++ [Unlock])).
  { intros ps -> I. destruct W0 as [-> | ->]; [exists ps|exists (OPASSWD :: ps)]; (split; [reflexivity|]); destruct I as [<-|[<-|[<-|[<-|[]]]]]; cbn; tauto. }
  destruct (negb (r1 =? 0)); [injection H as _ _ <-; apply (G []); [rewrite app_nil_r; reflexivity|left; reflexivity]|]. destruct (shadow || is_shadowed pw).
  - destruct (update_shadow _ _ _ d1 u h) as [[r2 d2]| |]; cbn [bind] in H; try discriminate. destruct ((r2 =? PAM_SUCCESS) && negb (is_shadowed pw)).
    + destruct (update_passwd _ _ d2 u (lit "x")) as [[r3 d3]| |]; cbn [bind] in H; try discriminate. injection H as _ _ <-. apply (G [SHADOW_FILE; PASSWD]); [reflexivity|cbn; tauto].
    + injection H as _ _ <-. apply (G [SHADOW_FILE]); [reflexivity|cbn; tauto].
  - destruct (update_passwd _ _ d1 u h) as [[r3 d3]| |]; cbn [bind] in H; try discriminate. injection H as _ _ <-. apply (G [PASSWD]); [reflexivity|cbn; tauto].
Qed.
Lemma under_lock_none : under_lock [Lock; Unlock].
Proof. exists []. split; [reflexivity|left; reflexivity]. Qed.

Section Change.
Variable crypt md5_good md5_broken : cstr -> cstr -> option cstr.
Variable fuel : nat.
Notation right := (right crypt md5_good md5_broken).
Notation unix_update := (unix_update crypt md5_good md5_broken fuel).
Notation chauthtok := (chauthtok crypt md5_good md5_broken fuel).

(** ** unix_update *)
(** The helper changes a password only when it is privileged, away from a terminal and asked to, for a known user: for root whatever is sent first, for
    that user if it is their password. *)
Theorem update_only_if : forall E U d argv s r d' w, length (u_pass U) = CAP -> length (u_towhat U) = CAP -> (length (plan s) + length (avail s) < fuel)%nat -> 0 <= n_now E ->
  unix_update E U d argv s = Ok (r, d', w) ->
  (r <> PAM_SUCCESS /\ d' = d /\ (w = [] \/ w = [Lock; Unlock])) \/
  (exists user shadow remember p h rest pw, argv = [user; lit "update"; shadow; remember] /\ u_tty U = false /\ u_euid U = 0 /\ u_lock U = true /\ avail s = (p ++ NUL :: h ++ NUL :: rest)%list /\ is_cstr p /\ is_cstr h /\
     getpw (n_db E) user = Some pw /\ (u_ruid U = 0 \/ n_uid E user = u_ruid U /\ exists x, stored (n_db E) true user x /\ right true p x) /\ under_lock w /\
     (r = PAM_SUCCESS -> set_to (n_libc E) (n_now E) pw user h (negb (atoi shadow =? 0)) (0 <=? atoi remember) d d')).
Proof.
  intros E U d argv s r d' w LP LT FU N H. unfold Unixset_Model.unix_update in H.
  assert (NO : forall c, c <> 0 -> Ok (c, d, []) = Ok (r, d', w) -> r <> PAM_SUCCESS /\ d' = d /\ (w = [] \/ w = [Lock; Unlock])) by (intros c C Q; injection Q as <- <- <-; auto).
  assert (NO2 : Ok (PAM_AUTHTOK_ERR, d, [Lock; Unlock]) = Ok (r, d', w) -> r <> PAM_SUCCESS /\ d' = d /\ (w = [] \/ w = [Lock; Unlock])) by (intros Q; injection Q as <- <- <-; split; [discriminate|auto]).
  destruct argv as [|user [|op [|sh [|rem [|]]]]]; try (left; eapply NO; [|exact H]; discriminate). destruct (u_tty U) eqn:TT; [left; eapply NO; [|exact H]; discriminate|]. destruct (Z.eqb_spec (u_euid U) 0) as [EU|]; cbn [negb] in H; [|left; eapply NO; [|exact H]; discriminate].
  destruct (streq op (lit "update")) eqn:OP; [|left; eapply NO; [|exact H]; discriminate]. apply streq_eq in OP. subst op. unfold set_password in H.
  destruct (passwords_handed_over fuel 2 [u_pass U; u_towhat U] s) as (pws & rest & bufs' & s' & ER & FC & LE & AV & LB & BB & _); [cbn; lia|repeat constructor; assumption|exact FU|].
  rewrite ER in H. cbn [bind] in H. destruct bufs' as [|b1 [|b2 [|]]]; try discriminate. destruct (Nat.eqb_spec (length pws) 2) as [L2|L2]; cbn [negb] in H; [|left; eapply NO; [|exact H]; discriminate].
  destruct pws as [|p [|h [|]]]; try discriminate. destruct (BB 0%nat _ _ eq_refl eq_refl) as (t1 & -> & _). destruct (BB 1%nat _ _ eq_refl eq_refl) as (t2 & -> & _). inversion FC as [|? ? CP FC']; subst. inversion FC' as [|? ? CH _]; subst.
  destruct (u_lock U) eqn:LK; cbn [negb] in H; [|left; eapply NO; [|exact H]; discriminate]. destruct (getpw (n_db E) user) as [pw|] eqn:GP; [|left; apply NO2; exact H].
  assert (C1 : forall q t, is_cstr q -> Str_Model.cut (q ++ NUL :: t) = q).
  { intros q t Q. induction q as [|c q IH]; cbn [app Str_Model.cut]; [reflexivity|]. destruct (Ascii.eqb_spec c NUL) as [->|]; [destruct (Q (or_introl eq_refl))|]. rewrite IH; [reflexivity|]. intros X. apply Q. right. exact X. }
  rewrite !C1 in H by assumption.
  match type of H with bind ?x _ = _ => destruct x as [may| |] eqn:EM end; cbn [bind] in H; try discriminate.
  assert (MAY : may = true -> u_ruid U = 0 \/ n_uid E user = u_ruid U /\ exists x, stored (n_db E) true user x /\ right true p x).
  { intros ->. destruct (Z.eqb_spec (u_ruid U) 0) as [R0|R0]; [auto|]. destruct (Z.eqb_spec (n_uid E user) (u_ruid U)) as [RU|RU]; cbn [negb] in EM; [|discriminate].
    destruct (helper_verify crypt md5_good md5_broken (u_mem U) true (n_db E) user p true) as [rv| |] eqn:EV; cbn [bind] in EM; try discriminate. injection EM as EM. apply Z.eqb_eq in EM. subst rv. right. split; [exact RU|]. unfold Unix_Model.helper_verify in EV.
    destruct (Unix_Model.hash_of (u_mem U) (account_info_helper true (n_db E) user)) as [[rv0 [pw'|]] [x|]] eqn:EH; try discriminate.
    exists x. split; [eapply helper_hash; exact EH|]. destruct (accepted_is_right _ _ _ _ _ _ _ EV) as (w' & Q & R). injection Q as <-. exact R. }
  destruct may; cbn [negb] in H; [|left; apply NO2; exact H]. specialize (MAY eq_refl).
  destruct (store md5_good E d pw user (Some p) h (negb (atoi sh =? 0)) (atoi rem)) as [[[r1 d1] w1]| |] eqn:ES; cbn [bind] in H; try discriminate. injection H as HR <- <-.
  right. exists user, sh, rem, p, h, rest, pw. split; [reflexivity|]. split; [reflexivity|]. split; [exact EU|]. split; [reflexivity|]. split.
  { rewrite AV. unfold terminated. cbn [map concat]. rewrite app_nil_r, <- !app_assoc. reflexivity. }
  split; [exact CP|]. split; [exact CH|]. split; [exact GP|]. split; [exact MAY|]. split; [eapply store_locked; exact ES|]. intros R. rewrite R in HR. destruct (Z.eqb_spec r1 0) as [->|]; [|discriminate]. apply (store_sets _ _ _ _ _ _ _ _ _ _ _ N ES).
Qed.

(** ** pam_unix *)
Lemma on_kept : forall x c, N.land (flag_of x) (mask_of NULLOK) = flag_of x -> flag_of NULLOK = 0%N -> on x (if on NONULL c then set NULLOK c else c) = on x c.
Proof.
  intros x c M Z0. destruct (on NONULL c); [|reflexivity]. unfold on, set. rewrite Z0, N.lor_0_r. rewrite (N.land_comm c), N.land_assoc, M. reflexivity.
Qed.
Ltac kept := repeat match goal with H : context [on ?x (if on NONULL ?c then set NULLOK ?c else ?c)] |- _ => rewrite (on_kept x c) in H by (vm_compute; reflexivity) end.
Lemma hash_kept : forall rnd salt mem p c rounds, create_hash crypt md5_good rnd salt mem p (if on NONULL c then set NULLOK c else c) rounds = create_hash crypt md5_good rnd salt mem p c rounds.
Proof.
  intros rnd salt mem p c rounds. unfold create_hash, algoid, off. rewrite !on_kept by (vm_compute; reflexivity). reflexivity.
Qed.
Lemma nonull_off : forall c, off NONULL (if on NONULL c then set NULLOK c else c) = true.
Proof. intros c. destruct (on NONULL c) eqn:E; [apply set_nullok_off|]. rewrite off_eq, E. reflexivity. Qed.
(** The user is in /etc/passwd. *)
Definition local_user (d : disk) (u : cstr) : Prop := exists f l, d PASSWD = Some f /\ In l (lines_of (Pwhist_Model.f_data f)) /\ is_prefix (u ++ lit ":") l = true.
Lemma files_local : forall E d u l, files_line E d u = Some l -> local_user d u /\ ~ In ":"%char u.
Proof.
  intros E d u l H. unfold files_line in H. destruct (existsb (Ascii.eqb ":"%char) u) eqn:X; [discriminate|]. destruct (n_opens E); [|discriminate]. destruct (d PASSWD) as [f|] eqn:F; [|discriminate].
  match type of H with option_map _ ?x = _ => destruct x as [y|] eqn:FD end; [|discriminate]. apply find_some in FD. destruct FD as [I P]. split; [exists f, y; auto|]. intro J. assert (Y : existsb (Ascii.eqb ":"%char) u = true) by (apply existsb_exists; exists ":"%char; split; [exact J|reflexivity]). congruence.
Qed.
(** A new password the module accepts: not empty, not the old one, not too long; from ordinary users long enough and not one of the old ones. *)
Definition acceptable (d : disk) (u : cstr) (old : option cstr) (p : cstr) (root remember compared : bool) (minlen : Z) : Prop :=
  p <> [] /\ old <> Some p /\ (length p <= 512)%nat /\
  (root = false -> minlen <= Z.of_nat (length p) /\ (remember = true -> compared = true -> d OPASSWD <> None /\ forall hs h, history d u hs -> In h hs -> md5_good p h <> Some h)).
Lemma approved : forall opens mem d ctrl u old p minlen, approve md5_good opens mem d ctrl u old (match p with [] => None | _ => Some p end) minlen = 0 ->
  forall b, (b = true -> forall k, mem k = true) -> acceptable d u old p (on IAMROOT ctrl) (on REMEMBER ctrl) b minlen.
Proof.
  intros opens mem d ctrl u old p minlen H b B. unfold approve in H. destruct p as [|c p']; [discriminate|]. remember (c :: p') as p eqn:EP. assert (NE : p <> []) by (subst; discriminate). clear EP.
  destruct (match old with Some o => streq o p | None => false end) eqn:SO; [discriminate|]. destruct (Nat.ltb_spec 512 (length p)) as [L|L]; [discriminate|]. split; [exact NE|]. split; [intros ->; rewrite streq_refl in SO; discriminate|]. split; [lia|].
  intros R. rewrite off_eq, R in H. cbn [negb] in H. destruct (on REMEMBER ctrl).
  - destruct (check_old md5_good opens mem d u p =? PAM_ABORT) eqn:CA; [apply Z.eqb_eq in CA; rewrite CA in H; discriminate|]. destruct (check_old md5_good opens mem d u p =? PAM_AUTHTOK_ERR) eqn:CE; cbn [orb] in H; [discriminate|].
    destruct (Z.ltb_spec (Z.of_nat (length p)) minlen); [discriminate|]. split; [assumption|]. intros _ C. specialize (B C). split.
    + intros X. unfold check_old in CA. rewrite X in CA. destruct opens; discriminate.
    + intros hs h HI IN V. destruct opens; [|discriminate]. assert (X : check_old md5_good true mem d u p = PAM_AUTHTOK_ERR) by (apply (proj2 (history_check md5_good mem d u hs p HI B)); exists h; auto). rewrite X in H. discriminate.
  - destruct (Z.ltb_spec (Z.of_nat (length p)) minlen); [discriminate|]. split; [assumption|discriminate].
Qed.
Lemma asked : forall M d ctrl u old minlen more k p, ask_new md5_good M d ctrl u old minlen k more = inr p -> exists j, (k <= j <= k + more)%nat /\ m_new M j = (0, p).
Proof.
  intros M d ctrl u old minlen more. induction more as [|more IH]; intros k p H; cbn [ask_new] in H; destruct (m_new M k) as [rv q] eqn:E; destruct (Z.eqb_spec rv 0) as [->|]; cbn [negb] in H; try discriminate.
  - destruct (approve _ _ _ _ _ _ _ _ _ =? 0); [|discriminate]. injection H as <-. exists k. split; [lia|exact E].
  - destruct (approve _ _ _ _ _ _ _ _ _ =? 0); [injection H as <-; exists k; split; [lia|exact E]|]. destruct (IH _ _ H) as (j & J & Q). exists j. split; [lia|exact Q].
Qed.
Lemma asked_not : forall M d ctrl u old minlen more k rv, ask_new md5_good M d ctrl u old minlen k more = inl rv -> rv <> 0.
Proof.
  intros M d ctrl u old minlen more. induction more as [|more IH]; intros k rv H; cbn [ask_new] in H; destruct (m_new M k) as [v q] eqn:E; destruct (Z.eqb_spec v 0) as [->|]; cbn [negb] in H; try (injection H as <-; assumption).
  - destruct (Z.eqb_spec (approve md5_good (m_opens M k) (m_cmp M k) d ctrl u old (match q with [] => None | _ => Some q end) minlen) 0); [discriminate|]. injection H as <-. assumption.
  - destruct (approve _ _ _ _ _ _ _ _ _ =? 0); [discriminate|]. apply (IH _ _ H).
Qed.

(** The first call, made to check, changes nothing; it succeeds for ordinary users only with their password, or when they have none. *)
Theorem preliminary_check : forall E M d ctrl v r d' w, on PRELIM ctrl = true -> sane fuel (m_e M 0%nat) -> sane fuel (m_e M 1%nat) -> getpw (n_db E) nonexistent = None -> is_cstr (snd (m_old M)) ->
  chauthtok E M d ctrl v = Ok (r, d', w) -> d' = d /\ w = [] /\
  (r = PAM_SUCCESS -> exists u, m_user M = (0, u) /\ local_user d u /\
    (on IAMROOT ctrl = true \/ (exists priv h, may_look (m_e M 0%nat) u priv /\ stored (n_db E) priv u h /\ right true [] h) \/
     (exists p priv h, m_old M = (0, p) /\ may_look (m_e M 1%nat) u priv /\ stored (n_db E) priv u h /\ (right true (firstn 512 p) h \/ right true [] h)))).
Proof.
  intros E M d ctrl v r d' w PR S0 S1 NE CO H. unfold Unixset_Model.chauthtok in H. cbv zeta in H. destruct (m_user M) as [urv u] eqn:EU.
  assert (NO : forall c, Ok (c, d, []) = Ok (r, d', w) -> d' = d /\ w = [] /\ c = r) by (intros c Q; injection Q as <- <- <-; auto).
  destruct (Z.eqb_spec urv 0) as [->|UN]; cbn [negb] in H; [|destruct (NO _ H) as (-> & -> & <-); split; [reflexivity|split; [reflexivity|contradiction]]].
  destruct (match u with c :: _ => Ascii.eqb c "-"%char || Ascii.eqb c "+"%char | [] => false end); [destruct (NO _ H) as (-> & -> & <-); split; [reflexivity|split; [reflexivity|discriminate]]|].
  destruct (files_line E d u) as [line|] eqn:FL; [|destruct (NO _ H) as (-> & -> & <-); split; [reflexivity|split; [reflexivity|discriminate]]].
  destruct (negb (entry_ok (m_mem M) line)); [destruct (NO _ H) as (-> & -> & <-); split; [reflexivity|split; [reflexivity|discriminate]]|].
  rewrite on_kept in H by (vm_compute; reflexivity). rewrite PR in H. destruct (blankpasswd crypt md5_good md5_broken fuel (m_e M 0%nat) (n_db E) _ u) as [b| |] eqn:EB; cbn [bind] in H; try discriminate.
  pose proof (proj1 (files_local _ _ _ _ FL)) as LU. destruct b.
  - destruct (NO _ H) as (-> & -> & <-). split; [reflexivity|]. split; [reflexivity|]. intros _. exists u. split; [reflexivity|]. split; [exact LU|]. right. left. destruct (blank_is_blank _ _ _ _ _ _ _ _ S0 NE EB) as (_ & X). exact X.
  - match type of H with bind ?x _ = _ => destruct x as [rv| |] eqn:EX end; cbn [bind] in H; try discriminate. destruct (Z.eqb_spec rv 0) as [->|RN]; cbn [negb] in H; [|destruct (NO _ H) as (-> & -> & <-); split; [reflexivity|split; [reflexivity|contradiction]]].
    destruct (verify_shadow crypt md5_good md5_broken fuel (m_e M 2%nat) (n_db E) _ u) as [vs| |]; cbn [bind] in H; try discriminate. assert (D : d' = d /\ w = []) by (match type of H with (if ?c then _ else _) = _ => destruct c end; destruct (NO _ H) as (-> & -> & _); auto). destruct D as [-> ->]. split; [reflexivity|]. split; [reflexivity|].
    intros _. exists u. split; [reflexivity|]. split; [exact LU|]. unfold off in EX. rewrite !on_kept in EX by (vm_compute; reflexivity). destruct (on IAMROOT ctrl); [left; reflexivity|]. right. right. cbn [negb] in EX.
    destruct (negb (on QUIET_ ctrl) && negb (m_info M =? PAM_SUCCESS)) eqn:QI; [apply andb_true_iff in QI; destruct QI as [_ QI]; injection EX as EX; rewrite EX in QI; discriminate|]. destruct (m_old M) as [orv p] eqn:EO. destruct (Z.eqb_spec orv 0) as [->|ON]; cbn [negb] in EX; [|injection EX as EX; contradiction].
    destruct (verify_password crypt md5_good md5_broken fuel (m_e M 1%nat) (n_db E) _ (m_fail M) u p) as [[rv f']| |] eqn:EV; cbn [bind] in EX; try discriminate. injection EX as ->. destruct (verified_is_right _ _ _ _ _ _ _ _ _ _ _ S1 CO EV) as (priv & h & ML & ST & R).
    exists p, priv, h. split; [reflexivity|]. split; [exact ML|]. split; [exact ST|]. rewrite nonull_off in R. destruct R as [R|[_ R]]; auto.
Qed.

(** The second call changes the password only of a user in /etc/passwd, to an acceptable new password, when the old one, if there is one, is right; and it
    reports success only if it does. *)
Theorem change_only_if : forall E M d ctrl v r d' w, on PRELIM ctrl = false -> sane fuel (m_e M 3%nat) -> (forall o, snd (m_item M) = Some o -> is_cstr o) -> 0 <= n_now E ->
  chauthtok E M d ctrl v = Ok (r, d', w) ->
  (r <> PAM_SUCCESS /\ d' = d /\ (w = [] \/ w = [Lock; Unlock])) \/
  (on UPDATE ctrl = true /\ exists u old p h pw, m_user M = (0, u) /\ local_user d u /\ m_item M = (0, old) /\ (exists j, (j <= 2)%nat /\ m_new M j = (0, p)) /\
     (forall b, (b = true -> forall k, m_cmp M 3%nat k = true) -> acceptable d u old p (on IAMROOT ctrl) (on REMEMBER ctrl) b (match v_minlen v with Some n => n | None => 0 end)) /\
     (forall o, old = Some o -> exists priv x, may_look (m_e M 3%nat) u priv /\ stored (n_db E) priv u x /\ (right true (firstn 512 o) x \/ right true [] x)) /\
     create_hash crypt md5_good (m_rnd M) (m_salt M) (m_hash M) p ctrl (match v_rounds v with Some n => n | None => 0 end) = Ok (Some h) /\ getpw (n_db E) u = Some pw /\ under_lock w /\
     (r = PAM_SUCCESS -> set_to (n_libc E) (n_now E) pw u h (on SHADOW ctrl) (match old with Some _ => 0 <=? match v_remember v with Some n => n | None => -1 end | None => false end) d d')).
Proof.
  intros E M d ctrl v r d' w PR S3 CO N H. unfold Unixset_Model.chauthtok in H. cbv zeta in H. destruct (m_user M) as [urv u] eqn:EU.
  assert (NO : forall c, c <> 0 -> Ok (c, d, []) = Ok (r, d', w) -> r <> PAM_SUCCESS /\ d' = d /\ (w = [] \/ w = [Lock; Unlock])) by (intros c C Q; injection Q as <- <- <-; auto).
  assert (NO2 : forall c, c <> 0 -> Ok (c, d, [Lock; Unlock]) = Ok (r, d', w) -> r <> PAM_SUCCESS /\ d' = d /\ (w = [] \/ w = [Lock; Unlock])) by (intros c C Q; injection Q as <- <- <-; auto).
  destruct (Z.eqb_spec urv 0) as [->|UN]; cbn [negb] in H; [|left; eapply NO; [|exact H]; assumption].
  destruct (match u with c :: _ => Ascii.eqb c "-"%char || Ascii.eqb c "+"%char | [] => false end); [left; eapply NO; [|exact H]; discriminate|].
  destruct (files_line E d u) as [line|] eqn:FL; [|left; eapply NO; [|exact H]; discriminate].
  destruct (negb (entry_ok (m_mem M) line)); [left; eapply NO; [|exact H]; discriminate|].
  remember (if on NONULL ctrl then set NULLOK ctrl else ctrl) as c' eqn:EC. assert (KP : forall x, N.land (flag_of x) (mask_of NULLOK) = flag_of x -> on x c' = on x ctrl) by (intros x X; rewrite EC; apply on_kept; [exact X|vm_compute; reflexivity]).
  rewrite (KP PRELIM), PR in H by (vm_compute; reflexivity). rewrite (KP UPDATE) in H by (vm_compute; reflexivity). destruct (on UPDATE ctrl) eqn:UP; [|left; eapply NO; [|exact H]; discriminate].
  destruct (m_item M) as [irv old] eqn:EI. destruct (Z.eqb_spec irv 0) as [->|IN]; cbn [negb] in H; [|left; eapply NO; [|exact H]; assumption].
  destruct (ask_new md5_good M d c' u old _ 0 _) as [rv|p] eqn:EA; [left; eapply NO; [|exact H]; eapply asked_not; exact EA|]. destruct (m_lock M); cbn [negb] in H; [|left; eapply NO; [|exact H]; discriminate].
  match type of H with bind ?x _ = _ => destruct x as [rv| |] eqn:EO end; cbn [bind] in H; try discriminate. destruct (Z.eqb_spec rv 0) as [->|RN]; cbn [negb] in H; [|left; eapply NO2; [|exact H]; assumption].
  destruct (verify_shadow crypt md5_good md5_broken fuel (m_e M 4%nat) (n_db E) c' u) as [vs| |]; cbn [bind] in H; try discriminate. destruct (Z.eqb_spec vs 0) as [V0|VN]; cbn [negb] in H; [|left; eapply NO2; [|exact H]; assumption].
  match type of H with context [approve md5_good ?a ?b ?c ?e ?f ?g ?k ?l] => remember (approve md5_good a b c e f g k l) as ap eqn:EAP end. destruct (Z.eqb_spec ap 0) as [->|AN]; cbn [negb] in H; [|left; eapply NO2; [|exact H]; assumption].
  destruct (create_hash crypt md5_good (m_rnd M) (m_salt M) (m_hash M) p c' _) as [[h|]| |] eqn:EH; cbn [bind] in H; try discriminate; [|left; eapply NO2; [|exact H]; discriminate].
  unfold do_setpass in H. destruct (getpw (n_db E) u) as [pw|] eqn:GP; cbn [bind] in H; [|left; eapply NO2; [|exact H]; discriminate]. rewrite FL in H. rewrite (KP SHADOW) in H by (vm_compute; reflexivity).
  destruct (store md5_good E d pw u old h (on SHADOW ctrl) _) as [[[r1 d1] w1]| |] eqn:ES; cbn [bind] in H; try discriminate. injection H as <- <- <-. right. split; [reflexivity|]. exists u, old, p, h, pw. split; [reflexivity|]. split; [apply (files_local _ _ _ _ FL)|]. split; [reflexivity|]. split.
  { destruct (asked _ _ _ _ _ _ _ _ _ EA) as (j & J & Q). exists j. split; [|exact Q]. destruct (on USE_AUTHTOK c' || on USE_FIRST_PASS c'); lia. }
  split; [rewrite <- (KP IAMROOT), <- (KP REMEMBER) by (vm_compute; reflexivity); apply (approved _ _ _ _ _ _ _ _ (eq_sym EAP))|]. split.
  { intros o ->. destruct (verify_password crypt md5_good md5_broken fuel (m_e M 3%nat) (n_db E) c' (m_fail M) u o) as [[rv f']| |] eqn:EV; cbn [bind] in EO; try discriminate. injection EO as ->. destruct (verified_is_right _ _ _ _ _ _ _ _ _ _ _ S3 (CO o eq_refl) EV) as (priv & x & ML & ST & R).
    exists priv, x. split; [exact ML|]. split; [exact ST|]. rewrite EC, nonull_off in R. destruct R as [R|[_ R]]; auto. }
  split; [rewrite <- EH, EC; symmetry; apply hash_kept|]. split; [exact GP|]. split; [eapply store_locked; exact ES|]. intros ->. apply (store_sets _ _ _ _ _ _ _ _ _ _ _ N ES).
Qed.
End Change.

(** After success the new password is the one the stored hash is for. *)
Theorem new_password_works : forall crypt hf big junk broken fuel E M d ctrl v d' w nullok, hf = true \/ big = false -> length junk = 64%nat -> own_salt crypt -> traditional crypt ->
  on PRELIM ctrl = false -> sane fuel (m_e M 3%nat) -> (forall o, snd (m_item M) = Some o -> is_cstr o) -> 0 <= n_now E ->
  chauthtok crypt (as_crypt (crypt_md5 hf big junk true)) broken fuel E M d ctrl v = Ok (PAM_SUCCESS, d', w) ->
  exists u j p h pw, m_user M = (0, u) /\ m_new M j = (0, p) /\ getpw (n_db E) u = Some pw /\ verify_hash crypt (as_crypt (crypt_md5 hf big junk true)) broken true (Some p) h nullok = Ok 0 /\
    (on SHADOW ctrl || shadow_mark pw = true -> exists day, day_of (n_now E) day /\ sp_change (n_libc E) u h day d d') /\ (on SHADOW ctrl || shadow_mark pw = false -> pw_change (n_libc E) u h d d').
Proof.
  intros crypt hf big junk broken fuel E M d ctrl v d' w nullok G J OS TR PR S3 CO N H. destruct (change_only_if _ _ _ _ _ _ _ _ _ _ _ _ PR S3 CO N H) as [(X & _)|(_ & u & old & p & h & pw & EU & _ & _ & (j & _ & EN) & AC & _ & EH & GP & _ & ST)]; [congruence|].
  exists u, j, p, h, pw. split; [exact EU|]. split; [exact EN|]. split; [exact GP|]. specialize (AC false ltac:(discriminate)). destruct AC as (NE & _ & LE & _). specialize (ST eq_refl). split; [|split; [apply ST|intros X; apply (set_passwd _ _ _ _ _ _ _ _ _ ST X)]].
  eapply new_hash_accepted; try eassumption. lia.
Qed.

(** ** Examples *)
Definition quiet_io : io := mkIo false true true true true true (fun _ => true) true true true true [] (fun _ _ => 0) (fun _ => true).
Definition users : disk := etc [lit "ann:x:1:1:Ann:/home/ann:/bin/sh"; lit "bob:absecret.....:2:2::/:"] [lit "ann:absecret.....:19000::::::"; lit "cat:!:100::::::"].
Definition accounts : db := mkDb (fun n => if streq n (lit "ann") then Some (mkPw (lit "ann") (lit "x")) else if streq n (lit "bob") then Some (mkPw (lit "bob") (lit "absecret.....")) else None)
  (fun priv n => if priv && streq n (lit "ann") then Some (shadowed "absecret.....") else None).
Definition here (pio : io) : env := mkEnv all_well all_well pio small 1728000000 (fun n => if streq n (lit "ann") then 1 else 2) accounts true.
Definition started (ruid : Z) : upd := mkUpd false ruid 0 true true dirt dirt.
Definition told (p h : string) : src := mkSrc (lit p ++ NUL :: lit h ++ [NUL])%list [].
Definition helper (pio : io) (ruid : Z) (user : string) (p h : string) : option (Z * option (list ascii) * option (list ascii) * list step) :=
  match unix_update Unixpw_Props.toy plain plain 3000 (here pio) (started ruid) users [lit user; lit "update"; lit "0"; lit "-1"] (told p h) with
  | Ok (r, d, w) => Some (r, option_map Pwhist_Model.f_data (d PASSWD), option_map Pwhist_Model.f_data (d SHADOW_FILE), w)
  | _ => None
  end.
Definition pw0 : option (list ascii) := option_map Pwhist_Model.f_data (users PASSWD).
Definition sh0 : option (list ascii) := option_map Pwhist_Model.f_data (users SHADOW_FILE).
Example update_example :
  helper all_well 1 "ann" "secret" "$6$new" = Some (0, pw0, Some (text_of [lit "ann:$6$new:20000::::::"; lit "cat:!:100::::::"]), [Lock; Write SHADOW_FILE; Unlock]) /\
  helper all_well 1 "ann" "wrong" "$6$new" = Some (20, pw0, sh0, [Lock; Unlock]) /\ helper all_well 2 "ann" "secret" "$6$new" = Some (20, pw0, sh0, [Lock; Unlock]) /\
  helper all_well 0 "ann" "wrong" "$6$new" = Some (0, pw0, Some (text_of [lit "ann:$6$new:20000::::::"; lit "cat:!:100::::::"]), [Lock; Write SHADOW_FILE; Unlock]) /\
  helper all_well 2 "bob" "secret" "$6$new" = Some (0, Some (text_of [lit "ann:x:1:1:Ann:/home/ann:/bin/sh"; lit "bob:$6$new:2:2::/:"]), sh0, [Lock; Write PASSWD; Unlock]).
Proof. vm_compute. repeat split. Qed.
Example update_hypotheses : length (u_pass (started 1)) = CAP /\ length (u_towhat (started 1)) = CAP /\ (length (plan (told "secret" "$6$new")) + length (avail (told "secret" "$6$new")) < 3000)%nat /\ 0 <= n_now (here all_well).
Proof. split; [apply repeat_length|]. split; [apply repeat_length|]. split; [apply Nat.ltb_lt; vm_compute; reflexivity|discriminate]. Qed.

(** The module, run by ann with privileges to read the hashes. *)
Definition asks (user : string) (item : option cstr) (new : list string) : menv :=
  mkMenv (0, lit user) true 0 (0, lit "secret") (0, item) (fun k => match nth_error new k with Some p => (0, lit p) | None => (PAM_AUTHTOK_ERR, []) end) true (fun _ => Unixauth_Props.see) none (fun _ => true) (fun _ _ => true) (fun _ => 0) (fun a _ => a) true.
Definition change (pio : io) (M : menv) (d : disk) (ctrl : list nat) (v : vals) : option (Z * option (list ascii) * option (list ascii) * list step) :=
  match chauthtok Unixpw_Props.toy plain plain 3000 (here pio) M d (fold_left (fun c x => N.lor c (flag_of x)) ctrl 0%N) v with
  | Ok (r, d, w) => Some (r, option_map Pwhist_Model.f_data (d PASSWD), option_map Pwhist_Model.f_data (d SHADOW_FILE), w)
  | _ => None
  end.
Definition six : vals := mkVals None None (Some 6).
Example change_example :
  change all_well (asks "ann" None []) users [PRELIM] six = Some (0, pw0, sh0, []) /\
  change all_well (asks "ann" (Some (lit "secret")) ["abc"; "newone"]%string) users [UPDATE; MD5_PASS] six = Some (0, pw0, Some (text_of [lit "ann:$1$newone:20000::::::"; lit "cat:!:100::::::"]), [Lock; Write SHADOW_FILE; Unlock]) /\
  change all_well (asks "ann" (Some (lit "secret")) ["abc"; "secret"; ""; "newone"]%string) users [UPDATE; MD5_PASS] six = Some (20, pw0, sh0, []) /\
  change all_well (asks "ann" (Some (lit "wrong")) ["newone"]%string) users [UPDATE; MD5_PASS] six = Some (7, pw0, sh0, [Lock; Unlock]) /\
  change all_well (asks "bob" (Some (lit "secret")) ["newone"]%string) users [UPDATE; MD5_PASS; SHADOW] six =
    Some (0, Some (text_of [lit "ann:x:1:1:Ann:/home/ann:/bin/sh"; lit "bob:x:2:2::/:"]), Some (text_of [lit "ann:absecret.....:19000::::::"; lit "cat:!:100::::::"; lit "bob:$1$newone:20000::::::"]), [Lock; Write SHADOW_FILE; Write PASSWD; Unlock]) /\
  change all_well (asks "cat" None ["newone"]%string) users [UPDATE; MD5_PASS; IAMROOT] six = Some (10, pw0, sh0, []).
Proof. vm_compute. repeat split. Qed.
Example change_hypotheses : sane 3000 (m_e (asks "ann" (Some (lit "secret")) []) 3%nat) /\ (forall o, snd (m_item (asks "ann" (Some (lit "secret")) [])) = Some o -> is_cstr o) /\ on PRELIM (flag_of UPDATE) = false /\ getpw accounts nonexistent = None.
Proof. split; [intros i k buf plan Q; discriminate|]. split; [intros o Q; injection Q as <-; vm_compute; intuition discriminate|]. split; vm_compute; reflexivity. Qed.

(** ** What does not hold *)
(** A failure can leave the new hash in the shadow file: here the mark in /etc/passwd could not be set. *)
Theorem failure_changes_nothing_refuted : exists M E d ctrl v d' w, chauthtok Unixpw_Props.toy plain plain 3000 E M d ctrl v = Ok (PAM_AUTHTOK_ERR, d', w) /\ option_map Pwhist_Model.f_data (d' SHADOW_FILE) <> option_map Pwhist_Model.f_data (d SHADOW_FILE).
Proof.
  exists (asks "bob" (Some (lit "secret")) ["newone"]%string), (here quiet_io), users, (fold_left (fun c x => N.lor c (flag_of x)) [UPDATE; MD5_PASS; SHADOW] 0%N), six. do 2 eexists. split; [vm_compute; reflexivity|]. vm_compute. discriminate.
Qed.
(** The second call does not ask for the old password: without PAM_OLDAUTHTOK an ordinary user changes a password that is set. *)
Theorem old_password_needed_refuted : exists M E d ctrl v d' w h, chauthtok Unixpw_Props.toy plain plain 3000 E M d ctrl v = Ok (PAM_SUCCESS, d', w) /\ on IAMROOT ctrl = false /\ m_user M = (0, lit "ann") /\
  stored (n_db E) true (lit "ann") h /\ ~ right Unixpw_Props.toy plain plain true [] h /\ snd (m_item M) = None.
Proof.
  exists (asks "ann" None ["newone"]%string), (here all_well), users, (fold_left (fun c x => N.lor c (flag_of x)) [UPDATE; MD5_PASS] 0%N), six. do 2 eexists. exists (lit "absecret....."). split; [vm_compute; reflexivity|]. split; [reflexivity|]. split; [reflexivity|].
  split; [exists (mkPw (lit "ann") (lit "x")); split; [reflexivity|]; exists (shadowed "absecret....."); split; reflexivity|]. split; [|reflexivity]. intros R. apply right_is_accepted in R. vm_compute in R. discriminate.
Qed.
(** The limits are for ordinary users: root may set a password of one character. *)
Example root_is_free : exists M d' w, chauthtok Unixpw_Props.toy plain plain 3000 (here all_well) M users (fold_left (fun c x => N.lor c (flag_of x)) [UPDATE; MD5_PASS; IAMROOT; REMEMBER] 0%N) six = Ok (PAM_SUCCESS, d', w) /\ m_new M 0%nat = (0, lit "x").
Proof. exists (asks "ann" None ["x"]%string). do 2 eexists. split; [vm_compute; reflexivity|reflexivity]. Qed.

Print Assumptions update_only_if.
Print Assumptions preliminary_check.
Print Assumptions change_only_if.
Print Assumptions new_password_works.
