(** What a configuration means: the entries it puts on the stacks, as a relation.
    It uses three readers that have their own specifications and theorems: [file_lines] (logical
    lines, C15), [mkargv] (words of a line, C12) and [control_of] (control fields, C10 and C11). *)
From Coq Require Import String Ascii List Arith ZArith Bool.
From Verif Require Import Base Dispatch_Model Ctl_Model Tok_Model Line_Model Conf_Model.
Import ListNotations.
Local Open Scope Z_scope.

Definition type_name (ty : mtype) : cstr :=
  match ty with T_AUTH => lit "auth" | T_SESS => lit "session" | T_ACCT => lit "account" | T_PASS => lit "password" end.
(** Equal up to letter case. *)
Definition same_word (a b : cstr) : Prop := map tolower a = map tolower b.

(** The type field: which type, and how the line is to be taken. *)
Inductive type_says (req : option mtype) : option cstr -> mtype -> htype -> Prop :=
| ts_plain : forall w ty, same_word w (type_name ty) -> type_says req (Some w) ty HT_MODULE
| ts_dash : forall w ty, same_word w (type_name ty) -> type_says req (Some ("-"%char :: w)) ty HT_SILENT
| ts_missing : forall ty, ty = match req with Some t => t | None => T_AUTH end -> type_says req None ty HT_MUST_FAIL
| ts_illegal : forall w ty, ty = match req with Some t => t | None => T_AUTH end ->
    (forall t, ~ same_word w (type_name t)) -> (forall t w', w = "-"%char :: w' -> ~ same_word w' (type_name t)) ->
    type_says req (Some w) ty HT_MUST_FAIL.

(** What the words of a line ask for. *)
Inductive meaning :=
| Nothing                                                        (* a line of another type *)
| Entry (ty : mtype) (kind : htype) (actions : list Z) (module : option cstr) (args : list cstr)
| Inclusion (ty : mtype) (sub : bool) (file : option cstr).

Inductive says (req : option mtype) (ws : list cstr) : meaning -> Prop :=
| says_nothing : forall ty kind r, type_says req (nth_error ws 0) ty kind -> req = Some r -> r <> ty -> says req ws Nothing
| says_nocontrol : forall ty kind, type_says req (nth_error ws 0) ty kind -> (req = None \/ req = Some ty) ->
    nth_error ws 1 = None -> says req ws (Entry ty HT_MUST_FAIL (repeat (-3) 32) None [])
| says_nomodule : forall ty kind c tab, type_says req (nth_error ws 0) ty kind -> (req = None \/ req = Some ty) ->
    nth_error ws 1 = Some c -> control_of c = Ok (CtlTable tab) -> nth_error ws 2 = None ->
    says req ws (Entry ty HT_MUST_FAIL tab None [])
| says_module : forall ty kind c tab m, type_says req (nth_error ws 0) ty kind -> (req = None \/ req = Some ty) ->
    nth_error ws 1 = Some c -> control_of c = Ok (CtlTable tab) -> nth_error ws 2 = Some m ->
    says req ws (Entry ty kind tab (Some m) (skipn 3 ws))
| says_include : forall ty kind c, type_says req (nth_error ws 0) ty kind -> (req = None \/ req = Some ty) ->
    nth_error ws 1 = Some c -> control_of c = Ok CtlInclude -> says req ws (Inclusion ty false (nth_error ws 2))
| says_substack : forall ty kind c, type_says req (nth_error ws 0) ty kind -> (req = None \/ req = Some ty) ->
    nth_error ws 1 = Some c -> control_of c = Ok CtlSubstack -> says req ws (Inclusion ty true (nth_error ws 2)).

(** An entry of a stack, before functions are looked up. *)
Record entry := mkE { e_other : bool; e_type : mtype; e_kind : htype; e_actions : list Z;
                      e_module : option cstr; e_args : list cstr; e_level : nat }.

(** The entry of a failed inclusion. *)
Definition fail_entry (other : bool) (ty : mtype) (level : nat) : entry :=
  mkE other ty HT_MUST_FAIL (repeat (-3) 32) None [] level.
Definition marker (other : bool) (ty : mtype) (level : nat) (file : option cstr) : entry :=
  mkE other ty HT_SUBSTACK (repeat (-6) 32) file [] level.

(** A module file name must leave something when directory and extension are removed. *)
Definition module_name (m : option cstr) : option cstr :=
  extract_modulename (match m with Some p => p | None => unknown_module end).
Definition nameable (e : entry) : Prop := module_name (e_module e) <> None.

Section Spec.
Variable opens : cstr -> option (list (list ascii)).
Variable service : cstr.

(** Lines concern the service itself or "other"; in a file of the directory all lines have the
    service of the file, in pam.conf the first word names it. *)
Inductive concerns : option cstr -> list cstr -> cstr -> list cstr -> Prop :=
| con_known : forall s ws, concerns (Some s) ws s ws
| con_named : forall s ws, concerns None (s :: ws) s ws.
Definition wanted (s : cstr) : Prop := same_word s service \/ same_word s (lit "other").
Definition for_other (s : cstr) (b : bool) : Prop := b = true <-> same_word s (lit "other").

(** [expands k known req level lines ok es good]: reading [lines] (of which the file reader says [ok] at
    the end) where inclusions may be nested k deep yields the entries [es]; [good]: without error. *)
Inductive expands : nat -> option cstr -> option mtype -> nat -> list cstr -> bool -> list entry -> bool -> Prop :=
| X_end : forall k known req level ok, expands k known req level [] ok [] ok
| X_foreign : forall k known req level l ls ok es good s ws,
    concerns known (mkargv l) s ws -> ~ wanted s ->
    expands k known req level ls ok es good -> expands k known req level (l :: ls) ok es good
| X_nothing : forall k known req level l ls ok es good s ws,
    concerns known (mkargv l) s ws -> wanted s -> says req ws Nothing ->
    expands k known req level ls ok es good -> expands k known req level (l :: ls) ok es good
| X_entry : forall k known req level l ls ok es good s ws o ty kind tab m args e,
    concerns known (mkargv l) s ws -> wanted s -> for_other s o -> says req ws (Entry ty kind tab m args) ->
    e = mkE o ty kind tab m args level -> nameable e ->
    expands k known req level ls ok es good -> expands k known req level (l :: ls) ok (e :: es) good
| X_noname : forall k known req level l ls ok s ws o ty kind tab m args e,
    concerns known (mkargv l) s ws -> wanted s -> for_other s o -> says req ws (Entry ty kind tab m args) ->
    e = mkE o ty kind tab m args level -> ~ nameable e ->
    expands k known req level (l :: ls) ok [e] false
| X_include : forall k known req level l ls ok s ws o ty file es1 g1 es2 good,
    concerns known (mkargv l) s ws -> wanted s -> for_other s o -> says req ws (Inclusion ty false file) ->
    included k s ty level file es1 g1 ->
    expands k known req level ls ok es2 good ->
    expands k known req level (l :: ls) ok (es1 ++ (if g1 then [] else [fail_entry o ty level]) ++ es2) good
| X_substack : forall k known req level l ls ok s ws o ty file es1 g1 es2 good,
    concerns known (mkargv l) s ws -> wanted s -> for_other s o -> says req ws (Inclusion ty true file) ->
    nameable (marker o ty level file) ->
    included k s ty (S level) file es1 g1 ->
    expands k known req level ls ok es2 good ->
    expands k known req level (l :: ls) ok
      (marker o ty level file :: es1 ++ (if g1 then [] else [fail_entry o ty level]) ++ es2) good
| X_substack_noname : forall k known req level l ls ok s ws o ty file,
    concerns known (mkargv l) s ws -> wanted s -> for_other s o -> says req ws (Inclusion ty true file) ->
    ~ nameable (marker o ty level file) ->
    expands k known req level (l :: ls) ok [marker o ty level file] false
with included : nat -> cstr -> mtype -> nat -> option cstr -> list entry -> bool -> Prop :=
| I_toodeep : forall s ty level file, included 0 s ty level file [] false
| I_nofile : forall k s ty level, included k s ty level None [] false
| I_unreadable : forall k s ty level file, opens file = None -> included k s ty level (Some file) [] false
| I_file : forall k s ty level file f ls ok es good, opens file = Some f -> file_lines c_space f = (ls, ok) ->
    expands k (Some s) (Some ty) level ls ok es good -> included (S k) s ty level (Some file) es good.

Scheme expands_ind2 := Induction for expands Sort Prop with included_ind2 := Induction for included Sort Prop.
Combined Scheme expands_included from expands_ind2, included_ind2.

(** The whole configuration: the file of the service and then the file "other" (either may be
    missing, not both), or /etc/pam.conf.  A file that reports an error is the last one read. *)
Definition file_gives (known : option cstr) (f : list (list ascii)) (es : list entry) (good : bool) : Prop :=
  exists ls ok, file_lines c_space f = (ls, ok) /\ expands 15 known None 0 ls ok es good.
Inductive configured (pamconf : option (list (list ascii))) : bool -> list entry -> bool -> Prop :=
| conf_none : opens service = None -> opens (lit "other") = None -> configured pamconf true [] false
| conf_own : forall f es good, opens service = Some f -> file_gives (Some service) f es good ->
    good = false \/ opens (lit "other") = None -> configured pamconf true es good
| conf_other : forall g es good, opens service = None -> opens (lit "other") = Some g ->
    file_gives (Some (lit "other")) g es good -> configured pamconf true es good
| conf_both : forall f g es1 es2 good, opens service = Some f -> file_gives (Some service) f es1 true ->
    opens (lit "other") = Some g -> file_gives (Some (lit "other")) g es2 good -> configured pamconf true (es1 ++ es2) good
| conf_single : forall f es good, pamconf = Some f -> file_gives None f es good -> configured pamconf false es good
| conf_nosingle : pamconf = None -> configured pamconf false [] false.
End Spec.

(** What a handler is apart from its cells. *)
Definition body (h : handler) := (h_type h, h_func h, h_actions h, h_args h, h_name h, h_level h).
(** The function a line calls: loaded module lines only. *)
Definition function (symbol : cstr -> string -> option nat) (dir : cstr) (e : entry) (sym : string) : option nat :=
  match e_kind e, e_module e with
  | (HT_MODULE | HT_SILENT), Some m => symbol (if is_prefix (lit "/") m then m else dir ++ m) sym
  | _, _ => None
  end.
Definition entry_body (symbol : cstr -> string -> option nat) (dir : cstr) (sym : string) (e : entry) :=
  (e_kind e, function symbol dir e sym, e_actions e, e_args e,
   match module_name (e_module e) with Some n => n | None => [] end, e_level e).
(** The entries of a stack. *)
Definition entries_for (other : bool) (ty : mtype) (es : list entry) : list entry :=
  filter (fun e => Bool.eqb (e_other e) other && mtype_eqb (e_type e) ty) es.
Definition named (e : entry) : bool := match module_name (e_module e) with Some _ => true | None => false end.
