(** Common vocabulary: PAM constants and C strings.
    No proofs about PAM here, only definitions and small list facts. *)
From Coq Require Import String Ascii List Arith ZArith Lia Bool.
Import ListNotations.
Local Open Scope Z_scope.

(** Return codes: libpam/include/security/_pam_types.h:28-85. *)
Notation PAM_SUCCESS := 0%Z (only parsing).
Notation PAM_OPEN_ERR := 1%Z (only parsing).
Notation PAM_SYMBOL_ERR := 2%Z (only parsing).
Notation PAM_SERVICE_ERR := 3%Z (only parsing).
Notation PAM_SYSTEM_ERR := 4%Z (only parsing).
Notation PAM_BUF_ERR := 5%Z (only parsing).
Notation PAM_PERM_DENIED := 6%Z (only parsing).
Notation PAM_AUTH_ERR := 7%Z (only parsing).
Notation PAM_CRED_INSUFFICIENT := 8%Z (only parsing).
Notation PAM_AUTHINFO_UNAVAIL := 9%Z (only parsing).
Notation PAM_USER_UNKNOWN := 10%Z (only parsing).
Notation PAM_MAXTRIES := 11%Z (only parsing).
Notation PAM_NEW_AUTHTOK_REQD := 12%Z (only parsing).
Notation PAM_ACCT_EXPIRED := 13%Z (only parsing).
Notation PAM_SESSION_ERR := 14%Z (only parsing).
Notation PAM_CRED_UNAVAIL := 15%Z (only parsing).
Notation PAM_CRED_EXPIRED := 16%Z (only parsing).
Notation PAM_CRED_ERR := 17%Z (only parsing).
Notation PAM_NO_MODULE_DATA := 18%Z (only parsing).
Notation PAM_CONV_ERR := 19%Z (only parsing).
Notation PAM_AUTHTOK_ERR := 20%Z (only parsing).
Notation PAM_AUTHTOK_RECOVERY_ERR := 21%Z (only parsing).
Notation PAM_AUTHTOK_LOCK_BUSY := 22%Z (only parsing).
Notation PAM_AUTHTOK_DISABLE_AGING := 23%Z (only parsing).
Notation PAM_TRY_AGAIN := 24%Z (only parsing).
Notation PAM_IGNORE := 25%Z (only parsing).
Notation PAM_ABORT := 26%Z (only parsing).
Notation PAM_AUTHTOK_EXPIRED := 27%Z (only parsing).
Notation PAM_MODULE_UNKNOWN := 28%Z (only parsing).
Notation PAM_BAD_ITEM := 29%Z (only parsing).
Notation PAM_CONV_AGAIN := 30%Z (only parsing).
Notation PAM_INCOMPLETE := 31%Z (only parsing).
Notation PAM_RETURN_VALUES := 32%Z (only parsing).

(** C strings: the bytes before the terminating NUL. *)
Definition cstr := list ascii.
Definition lit (s : string) : cstr := list_ascii_of_string s.
Definition NUL : ascii := Ascii.zero.

(** A value that can be a [char *]: contains no NUL. *)
Definition is_cstr (s : cstr) : Prop := ~ In NUL s.

(** strcmp(a,b) == 0 (C standard library). *)
Fixpoint streq (a b : cstr) : bool :=
  match a, b with
  | [], [] => true
  | x :: a', y :: b' => Ascii.eqb x y && streq a' b'
  | _, _ => false
  end.

Lemma streq_eq : forall a b, streq a b = true <-> a = b.
Proof.
  induction a as [|x a IH]; destruct b as [|y b]; simpl; split; intro H;
    try reflexivity; try discriminate.
  - apply andb_true_iff in H; destruct H as [H1 H2].
    apply Ascii.eqb_eq in H1; apply IH in H2; subst; reflexivity.
  - inversion H; subst. rewrite Ascii.eqb_refl; simpl; apply IH; reflexivity.
Qed.

Lemma streq_refl : forall a, streq a a = true.
Proof. intro a; apply streq_eq; reflexivity. Qed.

Lemma streq_neq : forall a b, streq a b = false <-> a <> b.
Proof.
  intros a b; split; intro H.
  - intro E; subst; rewrite streq_refl in H; discriminate.
  - destruct (streq a b) eqn:E; auto. apply streq_eq in E; contradiction.
Qed.

(** strncmp(prefix, s, strlen(prefix)) == 0: [prefix] is a prefix of [s]. *)
Fixpoint is_prefix (p s : cstr) : bool :=
  match p, s with
  | [], _ => true
  | x :: p', y :: s' => Ascii.eqb x y && is_prefix p' s'
  | _ :: _, [] => false
  end.

Lemma is_prefix_spec : forall p s, is_prefix p s = true <-> exists r, s = p ++ r.
Proof.
  induction p as [|x p IH]; intros s; simpl.
  - split; intro; [exists s|]; reflexivity.
  - destruct s as [|y s].
    + split; [discriminate|]. intros [r H]; discriminate.
    + split; intro H.
      * apply andb_true_iff in H; destruct H as [H1 H2].
        apply Ascii.eqb_eq in H1; apply IH in H2; destruct H2 as [r ->]; subst.
        exists r; reflexivity.
      * destruct H as [r H]; inversion H; subst.
        rewrite Ascii.eqb_refl; simpl; apply IH; exists r; reflexivity.
Qed.

(** ctype predicates of the "C" locale on byte values (C standard, 7.4). *)
Definition chr (n : nat) : ascii := ascii_of_nat n.
Definition ord (c : ascii) : nat := nat_of_ascii c.
Definition isdigit (c : ascii) : bool := ((48 <=? ord c) && (ord c <=? 57))%nat.
Definition isupper (c : ascii) : bool := ((65 <=? ord c) && (ord c <=? 90))%nat.
Definition islower (c : ascii) : bool := ((97 <=? ord c) && (ord c <=? 122))%nat.
Definition isalpha (c : ascii) : bool := isupper c || islower c.
Definition isalnum (c : ascii) : bool := isalpha c || isdigit c.
Definition isspace (c : ascii) : bool :=
  ((ord c =? 32) || ((9 <=? ord c) && (ord c <=? 13)))%nat.
Definition tolower (c : ascii) : ascii := if isupper c then chr (ord c + 32) else c.
Definition digit_val (c : ascii) : Z := Z.of_nat (ord c) - 48.

(** Named characters. *)
Definition c_space : ascii := " "%char.
Definition c_tab : ascii := chr 9.
Definition c_nl : ascii := chr 10.
Definition c_bslash : ascii := chr 92.
Definition c_lbr : ascii := "["%char.
Definition c_rbr : ascii := "]"%char.
Definition c_eq : ascii := "="%char.
Definition c_hash : ascii := "#"%char.
Definition c_slash : ascii := "/"%char.
Definition c_colon : ascii := ":"%char.

(** C int range (32 bit). *)
Definition INT_MAX : Z := 2147483647.
Definition INT_MIN : Z := -2147483648.

(** Outcome of code that may have undefined behaviour. *)
Inductive res (A : Type) : Type :=
| Ok (a : A)      (* defined result *)
| UB              (* undefined behaviour in C *)
| OutOfFuel.      (* the model's fuel ran out; theorems exclude it *)
Arguments Ok {A} a.
Arguments UB {A}.
Arguments OutOfFuel {A}.

Definition bind {A B} (r : res A) (f : A -> res B) : res B :=
  match r with Ok a => f a | UB => UB | OutOfFuel => OutOfFuel end.

(** Array write: [None] when out of bounds. *)
Fixpoint upd {A} (l : list A) (i : nat) (x : A) : option (list A) :=
  match l, i with
  | [], _ => None
  | _ :: t, O => Some (x :: t)
  | a :: t, S j => match upd t j x with Some t' => Some (a :: t') | None => None end
  end.

Lemma upd_length : forall A (l l' : list A) i x, upd l i x = Some l' -> length l' = length l.
Proof.
  induction l as [|a l IH]; simpl; intros l' i x H; [discriminate|].
  destruct i as [|i].
  - inversion H; reflexivity.
  - destruct (upd l i x) eqn:E; [|discriminate]. inversion H; subst; simpl.
    f_equal; eapply IH; eauto.
Qed.

Lemma upd_some : forall A (l : list A) i x, (i < length l)%nat -> exists l', upd l i x = Some l'.
Proof.
  induction l as [|a l IH]; simpl; intros i x H; [lia|].
  destruct i as [|i]; [eauto|].
  destruct (IH i x) as [l' E]; [lia|]. rewrite E; eauto.
Qed.

Lemma upd_in_range : forall A (l l' : list A) i x, upd l i x = Some l' -> (i < length l)%nat.
Proof.
  induction l as [|a l IH]; simpl; intros l' i x H; [discriminate|].
  destruct i as [|i]; [lia|].
  destruct (upd l i x) eqn:E; [|discriminate]. apply IH in E; lia.
Qed.

Lemma upd_same : forall A (l l' : list A) i x, upd l i x = Some l' -> nth_error l' i = Some x.
Proof.
  induction l as [|a l IH]; simpl; intros l' i x H; [discriminate|].
  destruct i as [|i].
  - inversion H; reflexivity.
  - destruct (upd l i x) eqn:E; [|discriminate]. inversion H; subst; simpl. eauto.
Qed.

Lemma upd_other : forall A (l l' : list A) i j x,
  upd l i x = Some l' -> i <> j -> nth_error l' j = nth_error l j.
Proof.
  induction l as [|a l IH]; simpl; intros l' i j x H N; [discriminate|].
  destruct i as [|i].
  - inversion H; subst. destruct j; [congruence|reflexivity].
  - destruct (upd l i x) eqn:E; [|discriminate]. inversion H; subst; simpl.
    destruct j; [reflexivity|]. simpl. eapply IH; eauto.
Qed.

Lemma upd_id : forall A (l : list A) i x, nth_error l i = Some x -> upd l i x = Some l.
Proof.
  induction l as [|a l IH]; destruct i; simpl; intros x H; try discriminate.
  - inversion H; reflexivity.
  - rewrite (IH _ _ H); reflexivity.
Qed.
