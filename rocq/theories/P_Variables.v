(** Property C103: signatures of variables that stubs annotate or assign. *)
From Verif Require Import Base PyText Models SpecCall ModelsProofs Ast Conversion Scoping SpecScoping SpecGenerics Stubs SpecStubs Signatures
  SpecSignatures SignaturesProofs SpecExpressions ExpressionProofs FunctionProofs LocationProofs BuiltProofs Whole SpecWhole WholeProofs.
From Verif Require Import ModelsMore CallTheorems RecordsProofs.
From Verif Require P_Described P_Expressions P_Evaluation P_Whole.

(** The value of the variable that [s] is about is described by [e]. *)
Inductive describes : stmt -> expr -> Prop :=
| de_annotated t e : describes (SAnnAssign t e None) e
| de_annotated_value t a e : describes (SAnnAssign t a (Some e)) e
| de_assigned ts e : describes (SAssign ts e) e.
Definition variable_at (says : list fact) (p : path) (e : expr) : Prop :=
  (exists k, kind_in p says = Some k /\ k <> CLASS) /\ exists s, nodes_in p says = [s] /\ describes s e.
Definition the_Callable : qualified_path := ([$"typing"], [$"Callable"]).

(** ** Too small a depth makes RecursionError be raised and changes nothing else *)
Section Depth.
Definition approximates {A} (x y : outcome A) : Prop := x = y \/ x = Throws RecursionError.
Lemma app_refl A (x : outcome A) : approximates x x.
Proof. now left. Qed.
Lemma app_bind A B (x y : outcome A) (f g : A -> outcome B) : approximates x y -> (forall a, approximates (f a) (g a)) ->
  approximates (obind x f) (obind y g).
Proof. intros [-> | ->] F; [|now right]. destruct y; cbn [obind]; [apply F|now left|now left]. Qed.
Lemma app_omap A B (f g : A -> outcome B) l : (forall a, approximates (f a) (g a)) -> approximates (omap f l) (omap g l).
Proof.
  intros F. induction l as [|a l IH]; [now left|]. cbn [omap]. apply app_bind; [apply F|]. intros b.
  apply app_bind; [exact IH|]. intros. apply app_refl.
Qed.
Context {V : Type}.
Variables (is_NONE is_Ellipsis : V -> bool) (Any Self TypeSelf : V) (evaluate : expr -> path -> path -> res V).
Variables (stubs : stubs_tables) (limit : nat) (is_type : bool) (value : V).
Notation from_expr := (from_expression_node is_NONE is_Ellipsis Any Self TypeSelf evaluate stubs limit is_type value).
Notation from_node := (from_statement_node is_NONE is_Ellipsis Any Self TypeSelf evaluate stubs limit is_type value).
Lemma deeper fuel : forall fuel', fuel <= fuel' ->
  (forall e m p, approximates (from_expr fuel e m p) (from_expr fuel' e m p))
  /\ (forall s m p, approximates (from_node fuel s m p) (from_node fuel' s m p)).
Proof.
  induction fuel as [|fuel IH]; intros fuel' L; [split; now right|].
  destruct fuel' as [|fuel']; [lia|]. apply le_S_n in L. destruct (IH fuel' L) as [IHe IHs]. clear IH L.
  assert (P : forall m p object_path,
    approximates
      (do '(m, o) <- of_resolution (resolve stubs limit m p object_path);
       do kinds <- lookup m (nodes_kinds stubs);
       do k <- lookup o kinds;
       if is_CLASS k then
         do nodes <- load_ast_nodes stubs m (o ++ [call_name]);
         do signatures <- omap (fun node => from_node fuel node m []) nodes;
         do bound <- omap (fun s => of_res (call_bind is_NONE s [value] [])) signatures;
         of_res (from_signatures bound)
       else
         do nodes <- lookup m (raw_ast_nodes stubs);
         do nodes <- lookup o nodes;
         match nodes with
         | [node] => from_node fuel node m []
         | _ => SignatureNotFound
         end)
      (do '(m, o) <- of_resolution (resolve stubs limit m p object_path);
       do kinds <- lookup m (nodes_kinds stubs);
       do k <- lookup o kinds;
       if is_CLASS k then
         do nodes <- load_ast_nodes stubs m (o ++ [call_name]);
         do signatures <- omap (fun node => from_node fuel' node m []) nodes;
         do bound <- omap (fun s => of_res (call_bind is_NONE s [value] [])) signatures;
         of_res (from_signatures bound)
       else
         do nodes <- lookup m (raw_ast_nodes stubs);
         do nodes <- lookup o nodes;
         match nodes with
         | [node] => from_node fuel' node m []
         | _ => SignatureNotFound
         end)).
  { intros m p o. apply app_bind; [apply app_refl|]. intros [m' o']. apply app_bind; [apply app_refl|]. intros kinds.
    apply app_bind; [apply app_refl|]. intros k. destruct (is_CLASS k).
    - apply app_bind; [apply app_refl|]. intros nodes. apply app_bind; [apply app_omap; intros; apply IHs|]. intros. apply app_refl.
    - apply app_bind; [apply app_refl|]. intros nodes. apply app_bind; [apply app_refl|]. intros [|n [|]]; try apply app_refl. apply IHs. }
  split.
  - intros e m p. destruct e; try apply app_refl.
    + apply app_bind; [apply app_refl|]. intros o. apply P.
    + apply app_bind; [apply app_refl|]. intros o. apply P.
    + cbn [from_expression_node]. apply app_bind; [apply app_refl|]. intros o. apply app_bind; [apply app_refl|]. intros q.
      destruct (q == _); [|apply app_refl]. destruct (find _ _) as [[? b]|]; [apply IHe|].
      apply app_bind; [apply app_omap; intros; apply IHe|]. intros. apply app_refl.
  - intros s m p. destruct s; cbn [from_statement_node]; try apply app_refl; apply IHe.
Qed.
Lemma class_call fuel e m p m' q nodes signatures bound :
  SpecSignatures.denotes stubs limit m p e (m', q) -> kind_at stubs (m', q) CLASS ->
  load_ast_nodes stubs m' (q ++ [call_name]) = Return nodes ->
  omap (fun node => from_node fuel node m' []) nodes = Return signatures ->
  omap (fun s => of_res (call_bind is_NONE s [value] [])) signatures = Return bound ->
  from_expr (S fuel) e m p = of_res (from_signatures bound).
Proof.
  intros (o & D & R) (t & Et & Eq) En Es Eb. apply to_path_dotted in D as Eo. cbn [fst snd] in Et, Eq.
  transitivity (do object_path <- of_res (to_path e);
     do '(m, o) <- of_resolution (resolve stubs limit m p object_path);
     do kinds <- lookup m (nodes_kinds stubs);
     do k <- lookup o kinds;
     if is_CLASS k then
       do nodes <- load_ast_nodes stubs m (o ++ [call_name]);
       do signatures <- omap (fun node => from_node fuel node m []) nodes;
       do bound <- omap (fun s => of_res (call_bind is_NONE s [value] [])) signatures;
       of_res (from_signatures bound)
     else
       do nodes <- lookup m (raw_ast_nodes stubs);
       do nodes <- lookup o nodes;
       match nodes with
       | [node] => from_node fuel node m []
       | _ => SignatureNotFound
       end); [destruct D; reflexivity|].
  rewrite Eo. cbn [of_res obind]. unfold resolve. rewrite R. cbn [of_resolution obind]. unfold lookup at 1. rewrite Et. cbn [obind].
  unfold lookup. rewrite Eq. cbn [obind is_CLASS]. rewrite En. cbn [obind]. rewrite Es. cbn [obind]. now rewrite Eb.
Qed.
End Depth.

Section Variables_.
Context {V : Type}.
Variables (is_NONE is_Ellipsis : V -> bool) (Any Self TypeSelf : V) (evaluate : expr -> path -> path -> res V).
Variables (limit : nat) (st : state).
Context {O : Type} `{Eqb O}.
Variables (sys_modules : dict pystr O) (getattr : O -> pystr -> option O) (own : O -> qualified_path).
Variables (table : dict path (dict path (list qualified_path))) (introspect : O -> res (raw_signature V)).
Variables (is_type : O -> bool) (as_value : O -> V).
Notation stubs := (signature_tables st).
Notation result := (from_callable is_NONE is_Ellipsis Any Self TypeSelf evaluate stubs (S limit)
  sys_modules getattr own introspect is_type as_value table).
Notation from_stub o := (from_stub_callable is_NONE is_Ellipsis Any Self TypeSelf evaluate stubs (S limit)
      sys_modules getattr own is_type as_value table o).
Notation found_first := (found_first (S limit) st sys_modules getattr table own).
Variables (m : path) (says : list fact).
Hypothesis told : (forall o, nodes_of_object st m o = nodes_in o says) /\ (forall o, kind_of_object st m o = kind_in o says).
Hypothesis named : m <> [].
Notation from_expr o := (from_expression_node is_NONE is_Ellipsis Any Self TypeSelf evaluate stubs (S limit) (is_type o) (as_value o)).
Lemma from_itself s : built is_NONE s -> from_signatures [s] = Ok s.
Proof.
  destruct s as [p|ps]; [reflexivity|]. intros B. apply built_overloaded in B as [_ L].
  destruct (from_signatures_exact [Overloaded ps]) as [X _]. cbn [flat_map flatten_signature] in X. rewrite app_nil_r in X.
  destruct X as (t & Et & Ft); [intros ->; cbn in L; lia|]. rewrite Et. f_equal. destruct t as [q|qs]; cbn in Ft; subst; [cbn in L; lia|reflexivity].
Qed.
Lemma described_by o p e : variable_at says p e -> p <> [] -> found_first o (m, p) ->
  exists r, from_stub o = match from_expr o limit e m (removelast p) with
                          | SignatureNotFound => r
                          | Throws x => Throws x
                          | Return s => Return s
                          end.
Proof.
  intros ((k & K & NC) & s & N & D) Np F.
  destruct (@P_Described.located V is_NONE is_Ellipsis Any Self TypeSelf evaluate limit st O _ sys_modules getattr own table is_type as_value
    m says told named o p k s [] Np F K NC N) as [r ->].
  eexists. cbn [omap].
  assert (E : from_statement_node is_NONE is_Ellipsis Any Self TypeSelf evaluate stubs (S limit) (is_type o) (as_value o) (S limit) (statement_of s) m (removelast p)
          = from_expr o limit e m (removelast p)) by now destruct D.
  rewrite E.
  pose proof (proj1 (@nodes_built V is_NONE is_Ellipsis Any Self TypeSelf evaluate stubs (S limit) (is_type o) (as_value o) limit) e m (removelast p)) as B.
  destruct (from_expr o limit e m (removelast p)) as [x| |]; cbn [obind]; [|reflexivity|reflexivity].
  now rewrite (from_itself x (B x eq_refl)).
Qed.
Lemma by_expression o p e kind s : variable_at says p e -> p <> [] -> found_first o (m, p) -> In kind function_kinds ->
  from_expr o limit e m (removelast p) = Return s -> result (kind o) = Ok s.
Proof.
  intros A Np F I E. destruct (described_by o p e A Np F) as [r X]. rewrite E in X.
  repeat (destruct I as [<-|I]; [cbn [from_callable]; rewrite X; reflexivity|]). destruct I.
Qed.
Lemma by_failure o p e kind x : variable_at says p e -> p <> [] -> found_first o (m, p) -> In kind function_kinds ->
  from_expr o limit e m (removelast p) = Throws x -> result (kind o) = Err x.
Proof.
  intros A Np F I E. destruct (described_by o p e A Np F) as [r X]. rewrite E in X.
  repeat (destruct I as [<-|I]; [cbn [from_callable]; rewrite X; reflexivity|]). destruct I.
Qed.
End Variables_.

(** ** Whatever the description means (C79) is the signature *)
(** if it is not nested deeper than the recursion limit *)
Theorem C103_variables :
  forall V O (H : Eqb O) is_NONE is_Ellipsis (Any Self TypeSelf : V) evaluate
         sys_modules getattr own table introspect is_type as_value
         source is_package condition printable limit fuel modules m st,
    parse_stubs_state source is_package condition printable (S limit) fuel modules = Ok st ->
    was_read source is_package condition fuel modules m -> m <> [] ->
    exists body says,
      described source is_package condition fuel modules m body says
      /\ forall (o : O) p e s kind,
           (* what the stub says about [p] *)
           variable_at says p e ->
           SpecExpressions.means is_NONE Any evaluate (signature_tables st) (S limit) (as_value o)
             (fun f m parent s => from_function_def is_NONE is_Ellipsis Any Self TypeSelf evaluate (signature_tables st) (S limit)
                                    f (is_type o) m parent = Return s)
             m (removelast p) e s ->
           (* the callable is described there *)
           p <> [] -> found_first (S limit) st sys_modules getattr table own o (m, p) -> In kind function_kinds ->
           let result := from_callable is_NONE is_Ellipsis Any Self TypeSelf evaluate
             (signature_tables st) (S limit) sys_modules getattr own introspect is_type as_value table (kind o) in
           result = Ok s \/ result = Err RecursionError.
Proof.
  intros V O H is_NONE is_Ellipsis Any Self TypeSelf evaluate sys_modules getattr own table introspect is_type as_value
    source is_package condition printable limit fuel modules m st E R Nm.
  destruct (@described_content source is_package condition printable (S limit) fuel modules m st R E)
    as (body & says & Hd & T1 & T2 & _).
  exists body, says. split; [exact Hd|]. intros o p e s kind A M Np F I result.
  apply P_Expressions.C79_expressions in M as [fuel' Ef].
  assert (X : approximates (from_expression_node is_NONE is_Ellipsis Any Self TypeSelf evaluate (signature_tables st) (S limit) (is_type o) (as_value o) limit e m (removelast p)) (Return s)).
  { destruct (Nat.le_ge_cases limit fuel') as [L|L].
    - rewrite <- Ef. now apply deeper.
    - destruct (@deeper V is_NONE is_Ellipsis Any Self TypeSelf evaluate (signature_tables st) (S limit) (is_type o) (as_value o) fuel' limit L) as [D _].
      destruct (D e m (removelast p)) as [Y|Y]; rewrite Ef in Y; [left; now symmetry|discriminate]. }
  destruct X as [X|X].
  - left. eapply by_expression; eauto.
  - right. eapply by_failure; eauto.
Qed.
Print Assumptions C103_variables.

(** ** [Callable[[a_1, ..., a_n], r]] *)
Theorem C103_callables_partial :
  forall V O (H : Eqb O) is_NONE is_Ellipsis (Any Self TypeSelf : V) (py : Evaluation.python V)
         sys_modules getattr own table introspect is_type as_value
         source is_package condition printable limit fuel modules m st,
    parse_stubs_state source is_package condition printable (S (S limit)) fuel modules = Ok st ->
    was_read source is_package condition fuel modules m -> m <> [] ->
    exists body says,
      described source is_package condition fuel modules m body says
      /\ forall (o : O) p c annotations returns values r kind depth memory,
           variable_at says p (Subscript c (Tuple [List annotations; returns])) ->
           SpecSignatures.denotes (signature_tables st) (S (S limit)) m (removelast p) c the_Callable ->
           Forall2 (known py (S (S limit)) (S depth) st memory m (removelast p)) annotations values ->
           known py (S (S limit)) (S depth) st memory m (removelast p) returns r ->
           p <> [] -> found_first (S (S limit)) st sys_modules getattr table own o (m, p) -> In kind function_kinds ->
           let s := Plain (mk_plain (unnamed_parameters values) r) in
           from_callable is_NONE is_Ellipsis Any Self TypeSelf (evaluate_node py (S (S limit)) (S depth) st memory)
             (signature_tables st) (S (S limit)) sys_modules getattr own introspect is_type as_value table (kind o) = Ok s
           (* it is called with as many positional arguments as there are annotations *)
           /\ forall args kwargs, all_set s args kwargs = true <-> length args = length annotations /\ kwargs = [].
Proof.
  intros V O H is_NONE is_Ellipsis Any Self TypeSelf py sys_modules getattr own table introspect is_type as_value
    source is_package condition printable limit fuel modules m st E R Nm.
  destruct (@described_content source is_package condition printable (S (S limit)) fuel modules m st R E)
    as (body & says & Hd & T1 & T2 & _).
  exists body, says. split; [exact Hd|]. intros o p c annotations returns values r kind depth memory A C K Kr Np F I s.
  assert (L : length annotations = length values) by (clear - K; induction K; cbn; congruence).
  split; [|intros args kwargs; rewrite L; apply P_Expressions.C79_callable_calls].
  assert (M : SpecExpressions.means is_NONE Any (evaluate_node py (S (S limit)) (S depth) st memory) (signature_tables st) (S (S limit)) (as_value o)
             (fun f m parent s => from_function_def is_NONE is_Ellipsis Any Self TypeSelf (evaluate_node py (S (S limit)) (S depth) st memory) (signature_tables st) (S (S limit))
                                    f (is_type o) m parent = Return s)
             m (removelast p) (Subscript c (Tuple [List annotations; returns])) s).
  { apply me_callable; [exact C| |now apply known_value].
    clear - K. induction K; constructor; [now apply known_value|assumption]. }
  apply P_Expressions.C79_expressions in M as [[|fuel'] Ef]; [discriminate|].
  eapply by_expression; eauto.
Qed.
Print Assumptions C103_callables_partial.
(** [Callable[..., r]] is called with any arguments. *)
Theorem C103_any_callables_partial :
  forall V O (H : Eqb O) is_NONE is_Ellipsis (Any Self TypeSelf : V) (py : Evaluation.python V)
         sys_modules getattr own table introspect is_type as_value
         source is_package condition printable limit fuel modules m st,
    parse_stubs_state source is_package condition printable (S (S limit)) fuel modules = Ok st ->
    was_read source is_package condition fuel modules m -> m <> [] ->
    exists body says,
      described source is_package condition fuel modules m body says
      /\ forall (o : O) p c returns r kind depth memory,
           variable_at says p (Subscript c (Tuple [Constant CEllipsis; returns])) ->
           SpecSignatures.denotes (signature_tables st) (S (S limit)) m (removelast p) c the_Callable ->
           known py (S (S limit)) (S depth) st memory m (removelast p) returns r ->
           p <> [] -> found_first (S (S limit)) st sys_modules getattr table own o (m, p) -> In kind function_kinds ->
           exists s,
             from_callable is_NONE is_Ellipsis Any Self TypeSelf (evaluate_node py (S (S limit)) (S depth) st memory)
               (signature_tables st) (S (S limit)) sys_modules getattr own introspect is_type as_value table (kind o) = Ok (Plain s)
             /\ Models.returns s = r
             /\ forall args kwargs, all_set (Plain s) args kwargs = true.
Proof.
  intros V O H is_NONE is_Ellipsis Any Self TypeSelf py sys_modules getattr own table introspect is_type as_value
    source is_package condition printable limit fuel modules m st E R Nm.
  destruct (@described_content source is_package condition printable (S (S limit)) fuel modules m st R E)
    as (body & says & Hd & T1 & T2 & _).
  exists body, says. split; [exact Hd|]. intros o p c returns r kind depth memory A C Kr Np F I.
  eexists. split; [|split; [|intros args kwargs; apply P_Expressions.C79_any_callable_calls]]; [|reflexivity].
  assert (M : SpecExpressions.means is_NONE Any (evaluate_node py (S (S limit)) (S depth) st memory) (signature_tables st) (S (S limit)) (as_value o)
             (fun f m parent s => from_function_def is_NONE is_Ellipsis Any Self TypeSelf (evaluate_node py (S (S limit)) (S depth) st memory) (signature_tables st) (S (S limit))
                                    f (is_type o) m parent = Return s)
             m (removelast p) (Subscript c (Tuple [Constant CEllipsis; returns]))
             (Plain (mk_plain [OptionalParameter Any None VARIADIC_POSITIONAL $"args"; OptionalParameter Any None VARIADIC_KEYWORD $"kwargs"] r))).
  { apply me_any_callable; [exact C|discriminate|now apply known_value]. }
  apply P_Expressions.C79_expressions in M as [[|fuel'] Ef]; [discriminate|].
  eapply by_expression; eauto.
Qed.
Print Assumptions C103_any_callables_partial.

(** ** Instances of classes *)
Section Top.
Variable m : path.
Variable package : bool.
Variable condition : list (pystr * qualified_path) -> expr -> res bool.
Variable finds : list fact -> path -> path -> option qualified_path -> Prop.
Variable type_variable : list fact -> qualified_path -> option bool -> Prop.
Variable arguments_of : expr -> list expr -> Prop.
(** Classes and definitions have names. *)
Definition is_named (f : fact) : Prop := match f with ClassAt o => o <> [] | Defines o _ _ => o <> [] | _ => True end.
Lemma silent_named fs : Forall silent fs -> Forall is_named fs.
Proof. intros S. eapply Forall_impl; [|exact S]. now intros []. Qed.
Lemma app_ne {A} (p q : list A) : q <> [] -> p ++ q <> [].
Proof. destruct p, q; easy. Qed.
Lemma dotted_ne e p : dotted e p -> p <> [].
Proof. intros []; [discriminate|now apply app_ne]. Qed.
Lemma concerning_named {A} (f : A -> list fact -> Prop) l fs : (forall a gs, f a gs -> Forall is_named gs) -> concerning f l fs -> Forall is_named fs.
Proof. intros F. induction 1; [constructor|]. apply Forall_app. eauto. Qed.
Lemma base_named parent name body before b fs ps :
  base_says m finds type_variable arguments_of parent name body before b fs ps -> Forall is_named fs.
Proof.
  destruct 1; try (apply Forall_app; split; [|now repeat constructor]); apply silent_named;
    eauto using stands_silent, variables_silent.
Qed.
Lemma bases_named parent name body before bs fs ps :
  bases_say m finds type_variable arguments_of parent name body before bs fs ps -> Forall is_named fs.
Proof. induction 1; [constructor|]. apply Forall_app. eauto using base_named. Qed.
Lemma bases_cut_named parent name body before bs fs :
  bases_cut m finds type_variable arguments_of parent name body before bs fs -> Forall is_named fs.
Proof. induction 1; [eapply silent_named, base_cut_silent; eassumption|]. apply Forall_app. eauto using base_named. Qed.
Lemma parameters_named o vars fs : parameters_say o vars fs -> Forall is_named fs.
Proof. destruct 1; now repeat constructor. Qed.
Lemma say_named :
  (forall before parent s fs, says m package condition finds type_variable arguments_of before parent s fs -> Forall is_named fs)
  /\ (forall before parent ss fs, all_say m package condition finds type_variable arguments_of before parent ss fs -> Forall is_named fs).
Proof.
  apply say_ind; intros; eauto.
  - repeat constructor. cbn. eauto using app_ne, dotted_ne.
  - apply Forall_app. split; [|now repeat constructor]. eauto using silent_named, stands_silent.
  - eapply concerning_named; [|eassumption]. cbn. intros ? ? (p & D & ->). repeat constructor. cbn. eauto using app_ne, dotted_ne.
  - apply Forall_app. split; [eauto using silent_named, stands_silent|]. eapply concerning_named; [|eassumption].
    cbn. intros ? ? (? & _ & ->). now repeat constructor.
  - repeat constructor. cbn. now apply app_ne.
  - repeat constructor. cbn. now apply app_ne.
  - constructor; [cbn; now apply app_ne|]. repeat (apply Forall_app; split); eauto using bases_named, parameters_named.
  - eapply concerning_named; [|eassumption]. intros a gs I. inversion I as [|? ? ? ? L N]; [now repeat constructor|]. subst.
    apply Forall_forall. intros f If. apply In_nth_error in If as [k Ek].
    assert (k < length p) by (rewrite <- L; apply nth_error_Some; congruence). rewrite N in Ek by assumption. injection Ek as <-. exact Logic.I.
  - eapply concerning_named; [|eassumption]. intros a gs I. inversion I; now repeat constructor.
  - apply Forall_app. eauto.
Qed.
Lemma cut_named :
  (forall before parent s fs, says_cut m package condition finds type_variable arguments_of before parent s fs -> Forall is_named fs)
  /\ (forall before parent ss fs, all_cut m package condition finds type_variable arguments_of before parent ss fs -> Forall is_named fs).
Proof.
  apply cut_ind; intros; eauto.
  - constructor; [cbn; now apply app_ne|]. eauto using bases_cut_named.
  - constructor; [cbn; now apply app_ne|]. repeat (apply Forall_app; split); eauto using bases_named, parameters_named.
  - apply Forall_app. split; [|assumption]. eapply (proj1 say_named). eassumption.
Qed.
End Top.
Lemma top_not_class source is_package condition fuel modules m body says : described source is_package condition fuel modules m body says ->
  kind_in [] says = None.
Proof.
  intros (_ & parsed & _ & (fuel' & T) & _).
  assert (N : Forall is_named says) by (destruct T as [T|T]; [eapply (proj2 (say_named _ _ _ _ _ _))|eapply (proj2 (cut_named _ _ _ _ _ _))]; exact T).
  clear T. unfold kind_in. induction N as [|f fs Nf _ IH]; [reflexivity|]. cbn [fold_left].
  replace (kind_step [] None f) with (@None node_kind); [exact IH|]. destruct f; try reflexivity; destruct o; try reflexivity; now destruct Nf.
Qed.
(** The first parameter is positional and has no default. *)
Definition takes_instance (f : function_def) : Prop :=
  exists w ws, written (fd_args f) = w :: ws /\ w_kind w = POSITIONAL_OR_KEYWORD /\ w_default w = None.
Section Instances.
Context {V : Type}.
Variables (is_NONE is_Ellipsis : V -> bool) (Any Self TypeSelf : V).
Variable py : Evaluation.python V.
Variables (limit depth : nat) (st : state) (memory : Evaluation.memory V).
Notation evaluate := (evaluate_node py (S limit) (S depth) st memory).
Notation stubs := (signature_tables st).
Lemma call_built value_of f m v : understood is_NONE py (S limit) (S depth) st memory value_of m [] f ->
  Forall (other_decorator stubs (S limit) m []) (fd_decorators f) -> takes_instance f ->
  has_kinds stubs m -> ~ is_class stubs m [] ->
  exists p q, from_function_def is_NONE is_Ellipsis Any Self TypeSelf evaluate stubs (S limit) f false m [] = Return (Plain p)
    /\ call_bind is_NONE (Plain p) [v] [] = Ok (Plain q) /\ says_bound is_Ellipsis Any value_of f q.
Proof.
  intros U Df (w & ws & Ew & Kw & Dw) Hk Hc.
  pose proof (@understood_formed V is_NONE py limit depth st memory value_of m [] f U) as Hw.
  destruct (@build_function V is_NONE is_Ellipsis Any Self TypeSelf evaluate value_of stubs (S limit) f m [] Hw Df Hk Hc) as (ps & Hp & Ep).
  pose proof Hp as Hp'. rewrite Ew in Hp'. inversion Hp' as [|? p0 ? ps0 F0 Fs]; subst ps.
  assert (L : legal_parameters (views (p0 :: ps0))).
  { rewrite (follow_views Hp). apply stored_views_legal, Hw. }
  destruct (@replaced_signature V is_NONE (p0 :: ps0) p0 ps0 (return_value Any value_of f) (p_annotation p0) eq_refl L) as [E0 _].
  exists (mk_plain (p0 :: ps0) (return_value Any value_of f)), (mk_plain ps0 (return_value Any value_of f)).
  split; [exact Ep|]. split.
  - rewrite call_bind_no_keywords. cbn [bind].
    destruct (@removed V is_NONE (p_annotation p0) (mk_plain (p0 :: ps0) (return_value Any value_of f)) (mk_plain ps0 (return_value Any value_of f)) v) as [-> _]; [|reflexivity].
    exists (p_name p0). split; [|split; [reflexivity|exact E0]]. cbn [parameters]. f_equal.
    pose proof (fo_required _ _ _ _ _ _ F0) as Rq. pose proof (fo_kind _ _ _ _ _ _ F0) as Kd. rewrite Kw in Kd. cbn in Kd.
    unfold written_view in Rq. rewrite Dw, Kw in Rq. cbn [v_required] in Rq. destruct p0; cbn in *; [now subst|discriminate].
  - exists w, ws. auto.
Qed.
Lemma calls_built value_of m v fs ss : Forall2 defines ss fs ->
  (forall f, In f fs -> understood is_NONE py (S limit) (S depth) st memory value_of m [] f
     /\ Forall (other_decorator stubs (S limit) m []) (fd_decorators f) /\ takes_instance f) ->
  has_kinds stubs m -> ~ is_class stubs m [] ->
  forall fuel,
  exists ps qs, omap (fun node => from_statement_node is_NONE is_Ellipsis Any Self TypeSelf evaluate stubs (S limit) false v (S fuel) node m []) (map statement_of ss)
      = Return (map Plain ps)
    /\ omap (fun s => of_res (call_bind is_NONE s [v] [])) (map Plain ps) = Return (map Plain qs)
    /\ Forall2 (says_bound is_Ellipsis Any value_of) fs qs.
Proof.
  intros D U Hk Hc fuel. induction D as [|s f ss fs Hs _ IH]; [exists [], []; now repeat split|].
  destruct IH as (ps & qs & E1 & E2 & A); [intros; apply U; now right|]. destruct (U f) as (Uf & Df & Tf); [now left|].
  destruct (call_built value_of f m v Uf Df Tf Hk Hc) as (p & q & Ep & Eq & Sq). exists (p :: ps), (q :: qs). split; [|split].
  - cbn [map omap]. replace (from_statement_node _ _ _ _ _ _ _ _ _ _ (S fuel) (statement_of s) m []) with (Return (Plain p)); [cbn [obind]; now rewrite E1|].
    symmetry. destruct Hs as [-> | ->]; exact Ep.
  - cbn [map omap]. rewrite Eq. cbn [of_res obind]. now rewrite E2.
  - now constructor.
Qed.
End Instances.
(** Of the class described in the module [m'], which may be [m]; names in its [__call__]
    are looked for outside of the class (signatures.py:158-162). *)
Theorem C103_instances_partial :
  forall V O (H : Eqb O) is_NONE is_Ellipsis (Any Self TypeSelf : V) (py : Evaluation.python V)
         sys_modules getattr own table introspect is_type as_value
         source is_package condition printable limit' fuel modules m m' st,
    let limit := S (S (S limit')) in
    parse_stubs_state source is_package condition printable limit fuel modules = Ok st ->
    was_read source is_package condition fuel modules m -> m <> [] ->
    was_read source is_package condition fuel modules m' ->
    exists body says body' says',
      described source is_package condition fuel modules m body says
      /\ described source is_package condition fuel modules m' body' says'
      /\ (m = m' -> body = body' /\ says = says')
      /\ forall (o : O) p e q fs value_of kind depth memory,
           (* the variable and its class *)
           variable_at says p e ->
           SpecSignatures.denotes (signature_tables st) limit m (removelast p) e (m', q) ->
           kind_in q says' = Some CLASS ->
           Forall2 defines (nodes_in (q ++ [$"__call__"]) says') fs -> fs <> [] ->
           (forall f, In f fs -> understood is_NONE py limit (S depth) st memory value_of m' [] f
              /\ Forall (other_decorator (signature_tables st) limit m' []) (fd_decorators f) /\ takes_instance f) ->
           p <> [] -> found_first limit st sys_modules getattr table own o (m, p) -> is_type o = false ->
           In kind function_kinds ->
           exists s,
             from_callable is_NONE is_Ellipsis Any Self TypeSelf (evaluate_node py limit (S depth) st memory)
               (signature_tables st) limit sys_modules getattr own introspect is_type as_value table (kind o) = Ok s
             /\ Forall2 (says_bound is_Ellipsis Any value_of) fs (flatten_signature s).
Proof.
  intros V O H is_NONE is_Ellipsis Any Self TypeSelf py sys_modules getattr own table introspect is_type as_value
    source is_package condition printable limit' fuel modules m m' st limit E R Nm R'. subst limit.
  destruct (@described_content source is_package condition printable (S (S (S limit'))) fuel modules m st R E)
    as (body & says & Hd & T1 & T2 & _).
  assert (X : exists body' says', described source is_package condition fuel modules m' body' says'
            /\ (m = m' -> body = body' /\ says = says')
            /\ (forall o, nodes_of_object st m' o = nodes_in o says') /\ (forall o, kind_of_object st m' o = kind_in o says')).
  { assert (Em : {m = m'} + {m <> m'}) by (do 2 (apply list_eq_dec; intros); apply N.eq_dec).
    destruct Em as [Em|Em].
    - subst m'. exists body, says. auto.
    - destruct (@described_content source is_package condition printable (S (S (S limit'))) fuel modules m' st R' E)
        as (body' & says' & Hd' & T1' & T2' & _). exists body', says'. split; [exact Hd'|]. split; [intros X; now destruct Em|auto]. }
  destruct X as (body' & says' & Hd' & Same & T1' & T2').
  exists body, says, body', says'. split; [exact Hd|]. split; [exact Hd'|]. split; [exact Same|].
  intros o p e q fs value_of kind depth memory A C K D Nf U Np F T I.
  assert (Hk : has_kinds (signature_tables st) m') by (apply (@kinds_has unit (fun _ => false) (fun _ => false) tt st m' q); rewrite T2'; congruence).
  assert (Hc : ~ is_class (signature_tables st) m' []) by (rewrite (@kinds_class st), T2', (top_not_class _ _ _ _ _ _ _ _ Hd'); discriminate).
  destruct (@calls_built V is_NONE is_Ellipsis Any Self TypeSelf py (S (S limit')) depth st memory value_of m' (as_value o) fs _ D U Hk Hc limit')
    as (ps & qs & E1 & E2 & S2).
  destruct (combine_plains (ps := qs)) as (s & Es & Fs); [intros ->; inversion S2; subst; tauto|].
  exists s. rewrite Fs. split; [|exact S2].
  apply by_expression with (m := m) (says := says) (p := p) (e := e); [split; assumption|exact Nm|exact A|exact Np|exact F|exact I|].
  rewrite T.
  destruct (nodes_in (q ++ [$"__call__"]) says') as [|n ns] eqn:N; [inversion D; subst; tauto|].
  rewrite (@class_call V is_NONE is_Ellipsis Any Self TypeSelf _ _ _ false (as_value o) (S limit') e m (removelast p) m' q (map statement_of (n :: ns)) (map Plain ps) (map Plain qs) C);
    [now rewrite Es| |exact (@P_Described.loaded st m' says' (conj T1' T2') _ _ _ N)|exact E1|exact E2].
  rewrite <- T2' in K. unfold kind_of_object in K. unfold kind_at. cbn. destruct (dget m' (kinds st)) as [t|]; [eauto|discriminate].
Qed.
Print Assumptions C103_instances_partial.

(** The stub
[[
from typing import Callable
c: Callable[[int, str], int]
d: Callable[..., int]
class K:
  x: Callable[[int], str]
  def __call__(self, x: int) -> str: ...
v: K
]] *)
Module Samples.
Import P_Evaluation.Samples P_Whole.Example.
Definition modules := [builtins; ([$"typing"], [SAnnAssign (Name $"Callable") (Name $"object") None]);
  ([$"m"], [SImportFrom (Some $"typing") [mk_alias $"Callable" None] 0;
            SAnnAssign (Name $"c") (Subscript (Name $"Callable") (Tuple [List [Name $"int"; Name $"str"]; Name $"int"])) None;
            SAnnAssign (Name $"d") (Subscript (Name $"Callable") (Tuple [Constant CEllipsis; Name $"int"])) None;
            SClassDef $"K" [] [SAnnAssign (Name $"x") (Subscript (Name $"Callable") (Tuple [List [Name $"int"]; Name $"str"])) None;
                               SFunctionDef (mk_function_def $"__call__"
              (mk_arguments [] [self_; arg_ $"x" $"int"] None [] [] None []) [] (Some (Name $"str")))];
            SAnnAssign (Name $"v") (Name $"K") None])].
Definition parsed : res state :=
  parse_stubs_state (source modules) (fun _ => false) (fun _ _ => Ok true) (fun _ => true) 50 20 [[$"typing"]; [$"m"]].
Definition st : state := match parsed with Ok st => st | Err _ => empty_state end.
Definition signature_of (p : path) : res (signature value) :=
  let* st := parsed in
  from_callable (fun _ => false) (fun v => match v with VConstant CEllipsis => true | _ => false end)
    (VOperation []) (VModule $"Self") (VModule $"TypeSelf") (evaluate_node py 50 20 st empty)
    (signature_tables st) 50 [] (fun _ _ => None) (fun q => q) (fun _ => Err ValueError)
    (fun _ => false) VObject [] (FunctionCallable ([$"m"], p)).
End Samples.
Import P_Evaluation.Samples P_Whole.Example Samples.
Example C103_example :
  map Samples.signature_of [[$"c"]; [$"d"]; [$"K"; $"x"]; [$"v"]]
  = [Ok (Plain (mk_plain [RequiredParameter (named_ $"int") POSITIONAL_ONLY $"_0";
                          RequiredParameter (named_ $"str") POSITIONAL_ONLY $"_1"] (named_ $"int")));
     Ok (Plain (mk_plain [OptionalParameter (VOperation []) None VARIADIC_POSITIONAL $"args";
                          OptionalParameter (VOperation []) None VARIADIC_KEYWORD $"kwargs"] (named_ $"int")));
     Ok (Plain (mk_plain [RequiredParameter (named_ $"int") POSITIONAL_ONLY $"_0"] (named_ $"str")));
     Ok (Plain (mk_plain [RequiredParameter (named_ $"int") POSITIONAL_ONLY $"x"] (named_ $"str")))].
Proof. vm_compute. reflexivity. Qed.
(** Hypotheses of [C103_callables_partial] and [C103_instances_partial] *)
Example C103_example_hypotheses :
  Samples.parsed = Ok Samples.st
  /\ was_read (source Samples.modules) (fun _ => false) (fun _ _ => Ok true) 20 [[$"typing"]; [$"m"]] [$"m"]
  /\ SpecSignatures.denotes (signature_tables Samples.st) 50 [$"m"] [] (Name $"Callable") the_Callable
  /\ SpecSignatures.denotes (signature_tables Samples.st) 50 [$"m"] [] (Name $"K") ([$"m"], [$"K"])
  /\ known py 50 20 Samples.st empty [$"m"] [] (Name $"int") (named_ $"int")
  /\ found_first 50 Samples.st [] (fun _ _ => None) [] (fun q => q) ([$"m"], [$"c"]) ([$"m"], [$"c"]).
Proof.
  split; [vm_compute; reflexivity|]. split; [eexists; split; [vm_compute; reflexivity|cbn; auto]|].
  split; [exists [$"Callable"]; split; [constructor|vm_compute; reflexivity]|].
  split; [exists [$"K"]; split; [constructor|vm_compute; reflexivity]|].
  split; [apply P_Whole.known_name; vm_compute; reflexivity|]. split.
  - exists ([$"m"], [$"c"]). split; [apply ca_itself; [reflexivity|discriminate]|vm_compute; reflexivity].
  - intros c C. assert (X : c = ([$"m"], [$"c"])) by (destruct C as [cs c' L I _|L _]; [discriminate L|reflexivity]).
    clear C. subst c. vm_compute. auto.
Qed.
