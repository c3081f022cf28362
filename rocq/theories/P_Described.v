(** Property C99: what stubs describe is not introspected. *)
From Verif Require Import Base Models SpecCall Ast Scoping SpecScoping Conversion SpecGenerics Stubs SpecStubs Signatures SpecSignatures
  SignaturesProofs GenericsProofs LocationProofs Whole SpecWhole WholeProofs BuildersProofs.
From Verif Require P_Evaluation P_Whole.

(** Functions of modules and methods as they are got from their classes *)
Definition unbound_kinds {V O} : list (O -> @callable V O) :=
  function_kinds ++ class_kinds ++ [(fun o => MethodCallable o TypeReceiver)].

Section Outcomes.
Lemma related A B (R : A -> B -> Prop) l l' a : Forall2 R l l' -> In a l -> exists b, R a b.
Proof. induction 1 as [|x y l l' Hx _ IH]; [intros []|]. intros [-> |I]; eauto. Qed.
Lemma omap_finds A B (f : A -> outcome B) l : (forall a, In a l -> f a <> SignatureNotFound) -> omap f l <> SignatureNotFound.
Proof.
  induction l as [|a l IH]; intros H; cbn [omap]; [discriminate|]. pose proof (H a (or_introl eq_refl)) as Ha.
  assert (Hl : omap f l <> SignatureNotFound) by (apply IH; intros; apply H; now right).
  destruct (f a); [cbn [obind]|easy|discriminate]. destruct (omap f l); [discriminate|easy|discriminate].
Qed.
Context {V : Type}.
Variables (is_NONE is_Ellipsis : V -> bool) (Any Self TypeSelf : V).
Variable evaluate : expr -> path -> path -> res V.
Variables (stubs : stubs_tables) (limit : nat).
Lemma of_res_finds A (x : res A) : of_res x <> SignatureNotFound.
Proof. now destruct x. Qed.
Lemma of_resolution_finds x : of_resolution x <> SignatureNotFound.
Proof. now destruct x. Qed.
Lemma any_classmethod_finds ds m parent : any_classmethod stubs limit ds m parent <> SignatureNotFound.
Proof.
  induction ds as [|d ds IH]; cbn [any_classmethod]; [discriminate|]. unfold is_classmethod.
  destruct (to_maybe_path d); cbn [obind]; [|exact IH]. pose proof (of_resolution_finds (resolve stubs limit m parent p)) as X.
  destruct (of_resolution _); [cbn [obind]|easy|discriminate]. destruct (_ == _); [discriminate|exact IH].
Qed.
Lemma function_finds f is_type m parent :
  from_function_def is_NONE is_Ellipsis Any Self TypeSelf evaluate stubs limit f is_type m parent <> SignatureNotFound.
Proof.
  unfold from_function_def, parameters_from.
  destruct (all_parameters is_NONE is_Ellipsis Any evaluate (fd_args f) m parent) as [ps|e]; cbn [of_res obind]; [|discriminate].
  assert (X : forall x : outcome (list (parameter V)), x <> SignatureNotFound ->
    (do ps <- x; do returns <- of_res (returns_annotation_from Any Self evaluate f is_type m parent); of_res (map_res Plain (new_plain ps returns)))
    <> SignatureNotFound).
  { intros [l| |e] N; cbn [obind]; [|easy|discriminate]. destruct (returns_annotation_from _ _ _ _ _ _ _); cbn [of_res obind]; [|discriminate].
    apply of_res_finds. }
  apply X. destruct is_type; [apply of_res_finds|]. pose proof (any_classmethod_finds (fd_decorators f) m parent) as Y.
  destruct (any_classmethod _ _ _ _ _) as [b| |]; cbn [obind]; [|easy|discriminate]. destruct b; [apply of_res_finds|].
  unfold lookup. destruct (dget m (nodes_kinds stubs)); cbn [obind]; [|discriminate]. destruct (dget parent _) as [[]|]; try discriminate. apply of_res_finds.
Qed.
Lemma statement_finds is_type value fuel s f m parent : defines s f ->
  from_statement_node is_NONE is_Ellipsis Any Self TypeSelf evaluate stubs limit is_type value fuel (statement_of s) m parent <> SignatureNotFound.
Proof.
  intros D. destruct fuel as [|fuel]; [discriminate|].
  destruct D as [-> | ->]; apply function_finds.
Qed.
Lemma or_introspect_found (x : outcome (signature V)) raw raw' : x <> SignatureNotFound ->
  or_introspect is_NONE Any x raw = or_introspect is_NONE Any x raw'.
Proof. now destruct x. Qed.
End Outcomes.

Section Found.
Context {V : Type}.
Variables (is_NONE is_Ellipsis : V -> bool) (Any Self TypeSelf : V).
Variable evaluate : expr -> path -> path -> res V.
Variables (limit : nat) (st : state).
Context {O : Type} `{Eqb O}.
Variables (sys_modules : dict pystr O) (getattr : O -> pystr -> option O) (own : O -> qualified_path).
Variables (table : dict path (dict path (list qualified_path))).
Variables (is_type : O -> bool) (as_value : O -> V).
Variables (m : path) (says : list fact).
Hypothesis told : (forall o, nodes_of_object st m o = nodes_in o says) /\ (forall o, kind_of_object st m o = kind_in o says).
Hypothesis named : m <> [].
Notation stubs := (signature_tables st).
Notation found_first := (found_first (S limit) st sys_modules getattr table own).
Notation from_stub o := (from_stub_callable is_NONE is_Ellipsis Any Self TypeSelf evaluate stubs (S limit)
      sys_modules getattr own is_type as_value table o).
Notation build o := (from_statement_node is_NONE is_Ellipsis Any Self TypeSelf evaluate stubs (S limit) (is_type o) (as_value o) (S limit)).
Lemma loaded p n ns : nodes_in p says = n :: ns -> load_ast_nodes stubs m p = Return (map statement_of (n :: ns)).
Proof.
  intros E. destruct told as [T _]. rewrite <- T in E.
  destruct (@nodes_stubs unit (fun _ => false) (fun _ => false) tt st m p) as (t & Et & En & _); [now rewrite E|].
  unfold load_ast_nodes. cbn [fst snd] in *. rewrite Et, En, E. reflexivity.
Qed.
Lemma located o p k n ns : p <> [] -> found_first o (m, p) -> kind_in p says = Some k -> k <> CLASS -> nodes_in p says = n :: ns ->
  exists r, from_stub o = match omap (fun s => build o (statement_of s) m (removelast p)) (n :: ns) with
                          | SignatureNotFound => first_location stubs (build o) r
                          | Throws e => Throws e
                          | Return signatures => of_res (from_signatures signatures)
                          end.
Proof.
  intros Np F K NC N. destruct told as [T1 T2]. rewrite <- T2 in K.
  destruct (@found_first_paths unit (fun _ => false) (fun _ => false) tt limit st O _ sys_modules getattr own table (fun _ => Err ValueError)
    (fun _ => false) (fun _ => tt) o m p F named Np) as [r E].
  exists r. unfold from_stub_callable, to_qualified_paths. rewrite E. cbn [obind].
  unfold kind_of_object in K. unfold lookup at 1. cbn [signature_tables nodes_kinds].
  destruct (dget m (kinds st)) as [t|]; [|discriminate]. cbn [obind]. unfold lookup. rewrite K. cbn [obind].
  replace (is_CLASS k) with false by (destruct k; cbn; congruence).
  etransitivity; [exact (@first_location_cons V stubs (build o) (m, p) r)|]. cbn [fst snd]. rewrite (loaded p n ns N). cbn [obind].
  assert (M : forall l, omap (build_at (build o) (m, p)) (map statement_of l) = omap (fun s => build o (statement_of s) m (removelast p)) l).
  { induction l as [|x l IH]; [reflexivity|]. cbn [map omap]. now rewrite IH. }
  now rewrite M.
Qed.
Lemma from_stub_finds o p fs : members_at says p fs -> p <> [] -> found_first o (m, p) -> from_stub o <> SignatureNotFound.
Proof.
  intros ((k & K & NC) & D & Ne) Np F. destruct (nodes_in p says) as [|n ns] eqn:N; [inversion D; subst; tauto|].
  destruct (located o p k n ns Np F K NC N) as [r ->].
  assert (X : omap (fun s => build o (statement_of s) m (removelast p)) (n :: ns) <> SignatureNotFound).
  { apply omap_finds. intros s I. destruct (related _ _ _ _ _ _ D I) as [f Hf]. now apply statement_finds with f. }
  destruct (omap _ _); [apply of_res_finds|easy|discriminate].
Qed.
End Found.

(** A callable whose first place is described by functions is never introspected: its
    signature is what these say, or an exception is raised, whatever [inspect.signature]
    gives. *)
Theorem C99_functions :
  forall V O (H : Eqb O) is_NONE is_Ellipsis (Any Self TypeSelf : V) evaluate
         sys_modules getattr own table is_type as_value
         source is_package condition printable limit fuel modules m st,
    parse_stubs_state source is_package condition printable (S limit) fuel modules = Ok st ->
    was_read source is_package condition fuel modules m -> m <> [] ->
    exists body says,
      described source is_package condition fuel modules m body says
      /\ forall (u : O) p fs, members_at says p fs -> p <> [] -> found_first (S limit) st sys_modules getattr table own u (m, p) ->
         forall introspect introspect' c,
           (exists kind, In kind unbound_kinds /\ c = kind u) \/ (exists o self kind, In kind (bound_kinds self u) /\ c = kind o) ->
           from_callable is_NONE is_Ellipsis Any Self TypeSelf evaluate (signature_tables st) (S limit)
             sys_modules getattr own introspect is_type as_value table c
           = from_callable is_NONE is_Ellipsis Any Self TypeSelf evaluate (signature_tables st) (S limit)
             sys_modules getattr own introspect' is_type as_value table c.
Proof.
  intros V O H is_NONE is_Ellipsis Any Self TypeSelf evaluate sys_modules getattr own table is_type as_value
    source is_package condition printable limit fuel modules m st E R Nm.
  destruct (@described_content source is_package condition printable (S limit) fuel modules m st R E)
    as (body & says & Hd & T1 & T2 & _).
  exists body, says. split; [exact Hd|]. intros u p fs A Np F introspect introspect' c C.
  pose proof (@from_stub_finds V is_NONE is_Ellipsis Any Self TypeSelf evaluate limit st O _ sys_modules getattr own table is_type as_value
    m says (conj T1 T2) Nm u p fs A Np F) as X.
  destruct C as [(kind & I & ->)|(o & self & kind & I & ->)].
  - repeat (destruct I as [<-|I]; [cbn [from_callable]; now apply or_introspect_found|]). destruct I.
  - assert (Y : from_bound is_NONE is_Ellipsis Any Self TypeSelf evaluate (signature_tables st) (S limit) sys_modules getattr own is_type as_value table
                  (Ok u) self <> SignatureNotFound).
    { unfold from_bound. cbn [of_res obind]. destruct (from_stub_callable _ _ _ _ _ _ _ _ _ _ _ _ _ _ _); [|easy|discriminate].
      cbn [obind]. apply of_res_finds. }
    repeat (destruct I as [<-|I]; [cbn [from_callable]; now apply or_introspect_found|]). destruct I.
Qed.
Print Assumptions C99_functions.

(** Neither are classes whose builder is described by functions. *)
Theorem C99_classes :
  forall V O (H : Eqb O) is_NONE is_Ellipsis (Any Self TypeSelf : V) evaluate
         sys_modules getattr own table is_type as_value
         source is_package condition printable limit fuel modules m st,
    parse_stubs_state source is_package condition printable (S limit) fuel modules = Ok st ->
    was_read source is_package condition fuel modules [$"typing"] -> was_read source is_package condition fuel modules m ->
    exists body says,
      described source is_package condition fuel modules m body says
      /\ forall (o : O) p b fs,
           has_places (S limit) st sys_modules getattr table own o ->
           (forall q, place_of (S limit) st sys_modules getattr table own o q -> exists l, lineage (db st) q l /\ length l <= S limit) ->
           choice (fun x => exists q, place_of (S limit) st sys_modules getattr table own o q /\ made_by st q x) (Some (m, p ++ [b])) ->
           Forall2 defines (nodes_in (p ++ [b]) says) fs -> fs <> [] ->
           forall introspect introspect',
           from_callable is_NONE is_Ellipsis Any Self TypeSelf evaluate (signature_tables st) (S limit)
             sys_modules getattr own introspect is_type as_value table (TypeCallable o)
           = from_callable is_NONE is_Ellipsis Any Self TypeSelf evaluate (signature_tables st) (S limit)
             sys_modules getattr own introspect' is_type as_value table (TypeCallable o).
Proof.
  intros V O H is_NONE is_Ellipsis Any Self TypeSelf evaluate sys_modules getattr own table is_type as_value
    source is_package condition printable limit fuel modules m st E RT R.
  destruct (@described_content source is_package condition printable (S limit) fuel modules m st R E)
    as (body & says & Hd & T1 & T2 & _).
  exists body, says. split; [exact Hd|]. intros o p b fs F L Ch D Ne introspect introspect'.
  destruct (@made_places source is_package condition printable limit fuel modules st E RT O H sys_modules getattr own table o F L)
    as (qs & Eq & Nq & B). apply (B (Some (m, p ++ [b]))) in Ch.
  cbn [from_callable]. unfold from_type_callable. rewrite Eq. cbn [obind]. replace (is_nil qs) with false by now destruct qs.
  rewrite Ch. cbn [obind]. destruct (nodes_in (p ++ [b]) says) as [|n ns] eqn:N; [inversion D; subst; tauto|].
  rewrite (loaded st m says (conj T1 T2) _ _ _ N). cbn [obind].
  match goal with |- context [omap ?f ?l] => assert (X : omap f l <> SignatureNotFound) end.
  { apply omap_finds. intros s I. apply in_map_iff in I as (s' & <- & I). destruct (related _ _ _ _ _ _ D I) as [f Hf]. now apply statement_finds with f. }
  destruct (omap _ _); [|easy|reflexivity]. cbn [obind]. now destruct (from_signatures _).
Qed.
Print Assumptions C99_classes.

(** So a function with a decorator whose name is not found has no signature, although all
    its parameters are understood: the exception of the lookup is raised. *)
Definition nowhere (st : state) (limit : nat) (m parent : path) (e : expr) : Prop :=
  exists p, dotted e p /\ resolve_object_path (db st) limit m parent p [] = ObjectNotFound.
Theorem C99_unknown_decorators :
  forall V O (H : Eqb O) is_NONE is_Ellipsis (Any Self TypeSelf : V) (py : Evaluation.python V)
         sys_modules getattr own table introspect is_type as_value
         source is_package condition printable limit fuel modules m st,
    parse_stubs_state source is_package condition printable (S limit) fuel modules = Ok st ->
    was_read source is_package condition fuel modules m -> m <> [] ->
    exists body says,
      described source is_package condition fuel modules m body says
      /\ forall (o : O) p f fs value_of before d after kind depth memory,
           members_at says p (f :: fs) -> p <> [] -> found_first (S limit) st sys_modules getattr table own o (m, p) -> is_type o = false ->
           understood is_NONE py (S limit) (S depth) st memory value_of m (removelast p) f ->
           fd_decorators f = before ++ d :: after ->
           Forall (other_decorator (signature_tables st) (S limit) m (removelast p)) before ->
           nowhere st (S limit) m (removelast p) d ->
           In kind unbound_kinds ->
           from_callable is_NONE is_Ellipsis Any Self TypeSelf (evaluate_node py (S limit) (S depth) st memory)
             (signature_tables st) (S limit) sys_modules getattr own introspect is_type as_value table (kind o) = Err OtherException.
Proof.
  intros V O H is_NONE is_Ellipsis Any Self TypeSelf py sys_modules getattr own table introspect is_type as_value
    source is_package condition printable limit fuel modules m st E R Nm.
  destruct (@described_content source is_package condition printable (S limit) fuel modules m st R E)
    as (body & says & Hd & T1 & T2 & _).
  exists body, says. split; [exact Hd|].
  intros o p f fs value_of before d after kind depth memory ((k & K & NC) & D & _) Np F T U Ed Hb (q & Hq & Hr) I.
  set (evaluate := evaluate_node py (S limit) (S depth) st memory) in *.
  destruct (nodes_in p says) as [|n ns] eqn:N; [inversion D|]. inversion D as [|? ? ? ? Dn _]; subst.
  destruct (@located V is_NONE is_Ellipsis Any Self TypeSelf evaluate limit st O _ sys_modules getattr own table is_type as_value
    m says (conj T1 T2) Nm o p k n ns Np F K NC N) as [r X].
  assert (Y : from_stub_callable is_NONE is_Ellipsis Any Self TypeSelf evaluate (signature_tables st) (S limit) sys_modules getattr own
                is_type as_value table o = Throws OtherException).
  { rewrite X. cbn [omap]. rewrite T.
    assert (B : from_function_def is_NONE is_Ellipsis Any Self TypeSelf evaluate (signature_tables st) (S limit) f false m (removelast p)
                = Throws OtherException).
    { unfold from_function_def, parameters_from.
      destruct (@FunctionProofs.well_formed_parameters V is_NONE is_Ellipsis Any evaluate value_of f m (removelast p)) as (ps & Ep & _).
      { exact (understood_formed U). }
      rewrite Ep. cbn [of_res obind]. rewrite Ed.
      assert (C : any_classmethod (signature_tables st) (S limit) (before ++ d :: after) m (removelast p) = Throws OtherException).
      { clear - Hb Hq Hr. induction Hb as [|b before Hd _ IH]; cbn [app any_classmethod].
        - unfold is_classmethod. apply to_maybe_path_dotted in Hq. rewrite Hq. unfold resolve. cbn [signature_tables database_of]. now rewrite Hr.
        - rewrite is_classmethod_other by exact Hd. exact IH. }
      rewrite C. reflexivity. }
    destruct Dn as [-> | ->]; cbn [statement_of from_statement_node]; rewrite B; reflexivity. }
  repeat (destruct I as [<-|I]; [cbn [from_callable]; rewrite Y; reflexivity|]). destruct I.
Qed.
Print Assumptions C99_unknown_decorators.

(** The same for callable variables that are described by something else than a name,
    a call or a subscript, [TypeError], or by a name that is not found. *)
Definition says_variable (says : list fact) (p : path) (e : expr) : Prop :=
  (exists k, kind_in p says = Some k /\ k <> CLASS)
  /\ ((exists target, nodes_in p says = [SAnnAssign target e None])
      \/ (exists target annotation, nodes_in p says = [SAnnAssign target annotation (Some e)])
      \/ exists targets, nodes_in p says = [SAssign targets e]).
Definition other_expression (e : expr) : Prop :=
  match e with Name _ | Attribute _ _ | Call _ _ _ | Subscript _ _ => False | _ => True end.
Theorem C99_variables :
  forall V O (H : Eqb O) is_NONE is_Ellipsis (Any Self TypeSelf : V) evaluate
         sys_modules getattr own table introspect is_type as_value
         source is_package condition printable limit fuel modules m st,
    parse_stubs_state source is_package condition printable (S (S limit)) fuel modules = Ok st ->
    was_read source is_package condition fuel modules m -> m <> [] ->
    exists body says,
      described source is_package condition fuel modules m body says
      /\ forall (o : O) p e kind,
           says_variable says p e -> p <> [] -> found_first (S (S limit)) st sys_modules getattr table own o (m, p) ->
           In kind unbound_kinds ->
           let result := from_callable is_NONE is_Ellipsis Any Self TypeSelf evaluate (signature_tables st) (S (S limit))
             sys_modules getattr own introspect is_type as_value table (kind o) in
           (other_expression e -> result = Err TypeError)
           /\ (nowhere st (S (S limit)) m (removelast p) e -> result = Err OtherException).
Proof.
  intros V O H is_NONE is_Ellipsis Any Self TypeSelf evaluate sys_modules getattr own table introspect is_type as_value
    source is_package condition printable limit fuel modules m st E R Nm.
  destruct (@described_content source is_package condition printable (S (S limit)) fuel modules m st R E)
    as (body & says & Hd & T1 & T2 & _).
  exists body, says. split; [exact Hd|]. intros o p e kind ((k & K & NC) & Sn) Np F I result.
  set (build := from_statement_node is_NONE is_Ellipsis Any Self TypeSelf evaluate (signature_tables st) (S (S limit)) (is_type o) (as_value o) (S (S limit))).
  assert (Y : forall x, (forall s, nodes_in p says = [s] -> build (statement_of s) m (removelast p) = Throws x) -> result = Err x).
  { intros x B. assert (N : exists n, nodes_in p says = [n]) by (destruct Sn as [(t & Sn)|[(t & a & Sn)|(t & Sn)]]; eauto).
    destruct N as [n N]. specialize (B n N).
    destruct (@located V is_NONE is_Ellipsis Any Self TypeSelf evaluate (S limit) st O _ sys_modules getattr own table is_type as_value
      m says (conj T1 T2) Nm o p k n [] Np F K NC N) as [r X].
    unfold build in B. cbn [omap] in X. rewrite B in X. cbn [obind] in X. subst result.
    repeat (destruct I as [<-|I]; [cbn [from_callable]; rewrite X; reflexivity|]). destruct I. }
  assert (Z : forall s, nodes_in p says = [s] -> build (statement_of s) m (removelast p)
    = from_expression_node is_NONE is_Ellipsis Any Self TypeSelf evaluate (signature_tables st) (S (S limit)) (is_type o) (as_value o) (S limit) e m (removelast p)).
  { intros s N. destruct Sn as [(t & Sn)|[(t & a & Sn)|(t & Sn)]]; rewrite Sn in N; injection N as <-; reflexivity. }
  split.
  - intros Oe. apply Y. intros s N. rewrite (Z s N). destruct e; try contradiction; reflexivity.
  - intros (q & Hq & Hr). apply Y. intros s N. rewrite (Z s N). pose proof (proj2 (to_path_dotted e q) Hq) as P.
    destruct Hq; cbn [from_expression_node]; rewrite P; cbn [of_res obind]; unfold resolve at 1; cbn [signature_tables database_of];
      rewrite Hr; reflexivity.
Qed.
Print Assumptions C99_variables.

(** A callable whose first place is only named in the stub, so is not described there, has no
    signature either: [KeyError] is raised, whatever its other places say. *)
Theorem C99_undescribed :
  forall V O (H : Eqb O) is_NONE is_Ellipsis (Any Self TypeSelf : V) evaluate
         sys_modules getattr own table introspect is_type as_value
         source is_package condition printable limit fuel modules m st,
    parse_stubs_state source is_package condition printable (S limit) fuel modules = Ok st ->
    was_read source is_package condition fuel modules m -> m <> [] ->
    exists body says,
      described source is_package condition fuel modules m body says
      /\ forall (u : O) p, kind_in p says = None -> p <> [] -> found_first (S limit) st sys_modules getattr table own u (m, p) ->
         forall c, (exists kind, In kind unbound_kinds /\ c = kind u) \/ (exists o self kind, In kind (bound_kinds self u) /\ c = kind o) ->
           from_callable is_NONE is_Ellipsis Any Self TypeSelf evaluate (signature_tables st) (S limit)
             sys_modules getattr own introspect is_type as_value table c = Err KeyError.
Proof.
  intros V O H is_NONE is_Ellipsis Any Self TypeSelf evaluate sys_modules getattr own table introspect is_type as_value
    source is_package condition printable limit fuel modules m st E R Nm.
  destruct (@described_content source is_package condition printable (S limit) fuel modules m st R E)
    as (body & says & Hd & T1 & T2 & _).
  exists body, says. split; [exact Hd|]. intros u p K Np F c C. rewrite <- T2 in K.
  destruct (@found_first_paths unit (fun _ => false) (fun _ => false) tt limit st O _ sys_modules getattr own table (fun _ => Err ValueError)
    (fun _ => false) (fun _ => tt) u m p F Nm Np) as [r X].
  assert (Y : from_stub_callable is_NONE is_Ellipsis Any Self TypeSelf evaluate (signature_tables st) (S limit) sys_modules getattr own
                is_type as_value table u = Throws KeyError).
  { unfold from_stub_callable, to_qualified_paths. rewrite X. cbn [obind].
    unfold kind_of_object in K. unfold lookup at 1. cbn [signature_tables nodes_kinds].
    destruct (dget m (kinds st)) as [t|]; [|reflexivity]. cbn [obind]. unfold lookup. now rewrite K. }
  destruct C as [(kind & I & ->)|(o & self & kind & I & ->)].
  - repeat (destruct I as [<-|I]; [cbn [from_callable]; rewrite Y; reflexivity|]). destruct I.
  - assert (Z : from_bound is_NONE is_Ellipsis Any Self TypeSelf evaluate (signature_tables st) (S limit) sys_modules getattr own is_type as_value table
                  (Ok u) self = Throws KeyError).
    { unfold from_bound. cbn [of_res obind]. now rewrite Y. }
    repeat (destruct I as [<-|I]; [cbn [from_callable]; rewrite Z; reflexivity|]). destruct I.
Qed.
Print Assumptions C99_undescribed.

(** ** Descriptions that are not understood *)
Module Example.
Import P_Evaluation.Samples P_Whole.Example.
(** [@unknown def f(x: int) -> str], [g: int | str], [h: nothing], [i = other], [def k(x: missing)] *)
Definition f := mk_function_def $"f" (mk_arguments [] [arg_ $"x" $"int"] None [] [] None []) [Name $"unknown"] (Some (Name $"str")).
Definition k := mk_function_def $"k" (mk_arguments [] [arg_ $"x" $"missing"] None [] [] None []) [] None.
Definition modules := [builtins;
  ([$"m"], [SFunctionDef f; SAnnAssign (Name $"g") (BinOp (Name $"int") BitOr (Name $"str")) None; SAnnAssign (Name $"h") (Name $"nothing") None;
            SAssign [Name $"i"] (Name $"other");            SFunctionDef k])].
Definition parsed : res state :=
  parse_stubs_state (source modules) (fun _ => false) (fun _ _ => Ok true) (fun _ => true) 50 20 [[$"m"]].
Definition st : state := match parsed with Ok st => st | Err _ => empty_state end.
Definition raw : raw_signature value := mk_raw_signature [] None.
Definition signature_of (q : qualified_path) : res (signature value) :=
  from_callable (fun _ => false) (fun v => match v with VConstant CEllipsis => true | _ => false end)
    (VOperation []) (VModule $"Self") (VModule $"TypeSelf") (evaluate_node py 50 20 st empty)
    (signature_tables st) 50 [] (fun _ _ => None) (fun q => q) (fun _ => Ok raw)
    (fun _ => false) VObject [] (FunctionCallable q).
End Example.
Import P_Evaluation.Samples P_Whole.Example Example.
(** None of them is introspected, unlike what is not described at all. *)
Example C99_example :
  map (fun n => signature_of ([$"m"], [n])) [$"f"; $"g"; $"h"; $"i"; $"k"; $"l"]
  = [Err OtherException; Err TypeError; Err OtherException; Err KeyError; Err OtherException; Ok (Plain (mk_plain [] (VOperation [])))].
Proof. vm_compute. reflexivity. Qed.
Lemma first_alone st limit (o q : qualified_path) : fst o <> [] -> resolve_object_path (db st) limit (fst o) [] (snd o) [] = Resolved q ->
  found_first limit st [] (fun (_ : qualified_path) _ => None) [] (fun q => q) o q.
Proof.
  intros N E. assert (C : forall c, candidate [] (fun (_ : qualified_path) _ => None) [] o o c -> c = o) by (intros c C; now inversion C).
  split.
  - exists o. split; [|exact E]. now apply ca_itself.
  - intros c Hc. rewrite (C c Hc), E. intros _ _. now destruct (PySort.qualified_path_total q q).
Qed.
(** What is said about them is of the forms above. *)
Example C99_example_hypotheses :
  parsed = Ok st
  /\ kind_of_object st [$"m"] [$"f"] = Some FUNCTION /\ nodes_of_object st [$"m"] [$"f"] = [SFunctionDef f]
  /\ kind_of_object st [$"m"] [$"h"] = Some ANNOTATED_ASSIGNMENT /\ nodes_of_object st [$"m"] [$"h"] = [SAnnAssign (Name $"h") (Name $"nothing") None]
  /\ nowhere st 50 [$"m"] [] (Name $"unknown") /\ nowhere st 50 [$"m"] [] (Name $"nothing")
  /\ other_expression (BinOp (Name $"int") BitOr (Name $"str"))
  /\ kind_of_object st [$"m"] [$"other"] = None
  /\ found_first 50 st [] (fun _ _ => None) [] (fun q => q) ([$"m"], [$"f"]) ([$"m"], [$"f"])
  /\ found_first 50 st [] (fun _ _ => None) [] (fun q => q) ([$"m"], [$"i"]) ([$"m"], [$"other"]).
Proof.
  split; [vm_compute; reflexivity|]. do 4 (split; [vm_compute; reflexivity|]).
  split; [exists [$"unknown"]; split; [constructor|vm_compute; reflexivity]|].
  split; [exists [$"nothing"]; split; [constructor|vm_compute; reflexivity]|]. split; [exact I|]. split; [vm_compute; reflexivity|].
  split; (apply first_alone; [discriminate|vm_compute; reflexivity]).
Qed.
