(** Proofs about RawNodes.v. *)
From Verif Require Import Base PyText PyExpr PyExprProofs PrettyProofs RawNodes SpecRaw.
From Verif Require Ast Conversion.
Set Implicit Arguments.

Section Values.
Variable P : value -> Prop.
Hypothesis HConst : forall c, P (VConst c).
Hypothesis HList : forall l, Forall P l -> P (VList l).
Hypothesis HNode : forall c l, Forall (fun a => match a with Some v => P v | None => True end) l -> P (VNode c l).
Hypothesis HClass : forall c, P (VClass c).
Fixpoint value_ind' (v : value) : P v :=
  let fix go (l : list value) : Forall P l :=
    match l with [] => Forall_nil P | x :: r => Forall_cons x (value_ind' x) (go r) end in
  let fix go2 (l : list (option value)) : Forall (fun a => match a with Some v => P v | None => True end) l :=
    match l with
    | [] => Forall_nil _
    | Some v :: r => Forall_cons (Some v) (value_ind' v) (go2 r)
    | None :: r => @Forall_cons _ (fun a => match a with Some v => P v | None => True end) None r I (go2 r)
    end in
  match v with
  | VConst c => HConst c
  | VList l => HList (go l)
  | VNode c l => HNode c (go2 l)
  | VClass c => HClass c
  end.
End Values.

Section Raw.
Variable printable : N -> bool.
Variable node_classes : classes.
Notation dump := (dump printable node_classes).
Notation eval_node := (eval_node node_classes).

(** The expression a dump is the text of *)
Definition literal_expr (c : literal) : expr :=
  match c with
  | Known Ast.CNone => EName $"None"
  | Known Ast.CTrue => EName $"True"
  | Known Ast.CFalse => EName $"False"
  | Known Ast.CEllipsis => EName $"Ellipsis"
  | Known (Ast.CInt z) => EInt z
  | Known (Ast.CStr s) => EString s
  | Known (Ast.CBytes bs) => EBytes bs
  | Known (Ast.CFloat x) => EFloat x
  | Known (Ast.CImaginary x) => EImaginary x
  | Infinity => EName $"inf"
  | ImaginaryInfinity => EName $"infj"
  end.
Section Arguments.
Variable A : Type.
Variable f : value -> A.
Fixpoint arguments (keywords : bool) (fields : list (pystr * bool)) (attributes : list (option value)) {struct attributes} : list (option pystr * A) :=
  match fields, attributes with
  | (name, optional) :: fields, attribute :: attributes =>
      match attribute with
      | None => arguments true fields attributes
      | Some v =>
          if is_none v && optional then arguments true fields attributes
          else ((if keywords then Some name else None), f v) :: arguments keywords fields attributes
      end
  | _, _ => []
  end.
End Arguments.
Fixpoint expr_of (v : value) : expr :=
  match v with
  | VConst c => literal_expr c
  | VList l => EList (map expr_of l)
  | VNode class attributes => ECall (EName class) (arguments expr_of false (fields_of node_classes class) attributes)
  | VClass class => EName class
  end.
Definition argument_text (a : option pystr * pystr) : pystr :=
  match fst a with Some n => n ++ $"=" ++ snd a | None => snd a end.
Lemma dump_node class attributes : dump false (VNode class attributes)
  = class ++ $"(" ++ join $", " (map argument_text (arguments (dump false) false (fields_of node_classes class) attributes)) ++ $")".
Proof.
  cbn [RawNodes.dump]. do 4 f_equal. 
  match goal with |- ?F false _ _ = _ => enough (G : forall fs k, F k fs attributes = map argument_text (arguments (dump false) k fs attributes)) by apply G end.
  induction attributes as [|a l IH]; intros [|[n o] fs] b; cbn [arguments map]; try reflexivity.
  destruct a as [v|]; [|apply IH]. destruct (is_none v && o); [apply IH|]. cbn [map]. f_equal; [|apply IH].
  now destruct b.
Qed.

Definition item_of_argument (a : option pystr * expr) : item := mk_item (fst a) (snd a) None.
Lemma call_items_of l : call_items (map item_of_argument l) = Some l.
Proof. induction l as [|[k e] l IH]; cbn; [easy|]. now rewrite IH. Qed.
Lemma shows_joined its entries : Forall2 (entry_shows printable) its entries ->
  exists b, shows_items printable its b (join $", " entries).
Proof.
  intros F. destruct F as [|it t its ts Ht F].
  - exists false. now apply si_nil.
  - eexists. rewrite <- (app_nil_r (join _ _)).
    apply (@shows_join printable [32%N] (it :: its) (t :: ts) eq_refl) with (w0 := []); try reflexivity; [now constructor|discriminate].
Qed.
Lemma literal_shows c : proper_constant c -> shows printable (literal_expr (Known c)) (Conversion.constant_repr printable c).
Proof. intros H. destruct c; cbn [literal_expr Conversion.constant_repr]; try (now apply sh_name); [apply sh_int|now apply sh_string|now apply sh_bytes|now apply sh_float|now apply sh_imaginary]. Qed.

Hypothesis HP : proper_classes node_classes.
Lemma dump_shows v : tree node_classes v -> shows printable (expr_of v) (dump false v).
Proof.
  induction v as [c|l IH|class l IH|class] using value_ind'; intros T.
  - inversion T; subst; cbn [RawNodes.dump repr_literal expr_of]; now apply literal_shows.
  - inversion T as [|l' Hl|]; subst. cbn [RawNodes.dump expr_of].
    assert (F : Forall2 (entry_shows printable) (map item_of (map expr_of l)) (map (dump false) l)).
    { clear T. induction IH as [|v l Hv IH' IH]; cbn [map]; constructor; [|apply IH; intros x Hx; apply Hl; now right].
      exists [], (dump false v). split; [reflexivity|]. split; [reflexivity|]. apply si_value. apply Hv, Hl. now left. }
    destruct (shows_joined F) as [b S]. change ($"[" ++ ?x ++ $"]") with (91%N :: x ++ [93%N]).
    eapply sh_list; [exact S|]. apply plain_items_of.
  - inversion T as [| |class' fields l' E L Hl]; subst. rewrite dump_node. cbn [expr_of].
    assert (EF : fields_of node_classes class = fields) by (unfold fields_of; now rewrite E). rewrite EF.
    destruct (HP class E) as (I & _ & _ & N).
    assert (F : Forall2 (entry_shows printable) (map item_of_argument (arguments expr_of false fields l))
                  (map argument_text (arguments (dump false) false fields l))).
    { clear T L E EF. revert fields N.
      enough (G : forall k fields, (forall name optional, In (name, optional) fields -> is_identifier name = true) ->
        Forall2 (entry_shows printable) (map item_of_argument (arguments expr_of k fields l)) (map argument_text (arguments (dump false) k fields l))) by (intros; now apply G).
      induction IH as [|a l Ha IH' IH]; intros k [|[n o] fs] N; try constructor.
      cbn [arguments]. assert (N' : forall name optional, In (name, optional) fs -> is_identifier name = true) by (intros x y Hx; apply (N x y); now right).
      assert (Hl' : forall v, In (Some v) l -> tree node_classes v) by (intros v Hv; apply Hl; now right).
      destruct a as [v|]; [|now apply IH]. destruct (is_none v && o); [now apply IH|].
      cbn [map]. constructor; [|now apply IH]. exists [], (argument_text (if k then Some n else None, dump false v)).
      split; [reflexivity|]. split; [reflexivity|]. assert (S : shows printable (expr_of v) (dump false v)) by (apply Ha, Hl; now left).
      destruct k; cbn [argument_text fst snd].
      - apply si_keyword; [apply (N n o); now left|exact S].
      - now apply si_value. }
    destruct (shows_joined F) as [b S]. change ($"(" ++ ?x ++ $")") with (40%N :: x ++ [41%N]).
    eapply sh_call; [now apply sh_name|exact S|apply call_items_of].
  - inversion T.
Qed.

(** ** Evaluation *)
Section Canonical.
Variable f : value -> value.
Fixpoint canonical_attributes (fields : list (pystr * bool)) (attributes : list (option value)) {struct attributes} : list (option value) :=
  match fields, attributes with
  | (name, optional) :: fields, attribute :: attributes =>
      match attribute with
      | None => None
      | Some v => if is_none v && optional then None else Some (f v)
      end :: canonical_attributes fields attributes
  | _, _ => []
  end.
End Canonical.
Fixpoint canonical (v : value) : value :=
  match v with
  | VConst c => VConst c
  | VList l => VList (map canonical l)
  | VNode class attributes => VNode class (canonical_attributes canonical (fields_of node_classes class) attributes)
  | VClass class => VClass class
  end.

Lemma keyword_absent n g : forall l fields k, ~ In n (map fst fields) -> keyword n (arguments g k fields l) = None.
Proof.
  induction l as [|a l IH]; intros [|[x o] fs] k H; try reflexivity. cbn [arguments].
  cbn [map fst In] in H. assert (H' : ~ In n (map fst fs)) by tauto.
  destruct a as [v|]; [|now apply IH]. destruct (is_none v && o); [now apply IH|]. destruct k; cbn [keyword]; [|now apply IH].
  destruct (eqb_reflect x n) as [->|]; [tauto|now apply IH].
Qed.
Lemma keywords_place : forall l fields, NoDup (map fst fields) -> length l = length fields ->
  map (fun f => keyword (fst f) (arguments canonical true fields l)) fields = canonical_attributes canonical fields l.
Proof.
  induction l as [|a l IH]; intros [|[x o] fs] N L; try discriminate L; [reflexivity|].
  cbn [map fst] in N. inversion N as [|y z N1 N2]; subst. injection L as L. cbn [map fst canonical_attributes arguments].
  assert (R : forall args, map (fun f : pystr * bool => keyword (fst f) ((Some x, args) :: arguments canonical true fs l)) fs
                           = canonical_attributes canonical fs l).
  { intros w. rewrite <- IH by assumption. apply map_ext_in. intros [n o'] Hn. cbn [fst keyword].
    destruct (eqb_reflect x n) as [->|]; [|reflexivity]. destruct N1. apply in_map_iff. now exists (n, o'). }
  destruct a as [v|]; [|rewrite keyword_absent by exact N1; f_equal; now apply IH].
  destruct (is_none v && o); [rewrite keyword_absent by exact N1; f_equal; now apply IH|].
  f_equal; [|apply R]. cbn [keyword]. now rewrite eqb_refl.
Qed.
Lemma keywords_known : forall l fields, 
  forallb (fun a : option pystr * value => match fst a with Some n => mem n (map fst fields) | None => false end) (arguments canonical true fields l) = true.
Proof.
  intros l fields. apply forallb_forall. intros a.
  assert (G : forall all l fields, incl (map fst fields) all -> In a (arguments canonical true fields l) ->
    match fst a with Some n => mem n all | None => false end = true).
  { clear. intros all. induction l as [|b l IH]; intros [|[x o] fs] Hi H; try destruct H. cbn [arguments] in H.
    assert (Hi' : incl (map fst fs) all) by (intros y Hy; apply Hi; now right).
    destruct b as [v|]; [|now apply (IH fs)]. destruct (is_none v && o); [now apply (IH fs)|].
    destruct H as [<-|H]; [|now apply (IH fs)]. cbn [fst]. apply mem_In, Hi. now left. }
  apply G, incl_refl.
Qed.
Lemma keyword_names_sub : forall l fields, incl (keyword_names (arguments canonical true fields l)) (map fst fields).
Proof.
  induction l as [|a l IH]; intros [|[x o] fs] n H; try destruct H. cbn [arguments] in H. cbn [map fst].
  destruct a as [v|]; [|right; now apply IH]. destruct (is_none v && o); [right; now apply IH|].
  destruct H as [<-|H]; [now left|right; now apply IH].
Qed.
Lemma keywords_distinct : forall l fields, NoDup (map fst fields) ->
  distinct_names (keyword_names (arguments canonical true fields l)) = true.
Proof.
  induction l as [|a l IH]; intros [|[x o] fs] N; try reflexivity. cbn [arguments].
  cbn [map fst] in N. inversion N as [|y z N1 N2]; subst.
  destruct a as [v|]; [|now apply IH]. destruct (is_none v && o); [now apply IH|].
  cbn [keyword_names flat_map fst app distinct_names]. rewrite IH by assumption.
  replace (mem x _) with false; [reflexivity|]. symmetry. apply mem_not_In. intros H. apply N1. now apply (keyword_names_sub l fs).
Qed.
Lemma construct_keywords l fields : NoDup (map fst fields) -> length l = length fields ->
  construct fields (arguments canonical true fields l) = Some (canonical_attributes canonical fields l).
Proof.
  intros N L. rewrite <- keywords_place by assumption.
  pose proof (keywords_known l fields) as H1. pose proof (keywords_distinct l fields N) as H2.
  destruct (arguments canonical true fields l) as [|[[n|] v] r] eqn:E.
  - destruct fields; reflexivity.
  - destruct fields as [|f fs]; cbv beta iota fix delta [construct]; rewrite H1, H2; reflexivity.
  - discriminate H1.
Qed.
Lemma construct_all : forall l fields, NoDup (map fst fields) -> length l = length fields ->
  construct fields (arguments canonical false fields l) = Some (canonical_attributes canonical fields l).
Proof.
  induction l as [|a l IH]; intros [|[x o] fs] N L; try discriminate L; [reflexivity|].
  assert (N2 : NoDup (map fst fs)) by now inversion N. pose proof L as L'. injection L' as L'.
  assert (K : arguments canonical false ((x, o) :: fs) (a :: l) = arguments canonical true fs l ->
    canonical_attributes canonical ((x, o) :: fs) (a :: l) = None :: canonical_attributes canonical fs l ->
    construct ((x, o) :: fs) (arguments canonical false ((x, o) :: fs) (a :: l))
    = Some (canonical_attributes canonical ((x, o) :: fs) (a :: l))).
  { intros E1 E2. rewrite E1, E2. pose proof (@construct_keywords (None :: l) ((x, o) :: fs) N L) as H. exact H. }
  destruct a as [v|]; [|now apply K]. cbn [arguments canonical_attributes] in *. destruct (is_none v && o); [now apply K|].
  cbn [construct]. now rewrite IH.
Qed.

Lemma class_name class fields : dget class node_classes = Some fields -> name_value node_classes class = Some (VClass class).
Proof.
  intros E. destruct (HP class E) as (_ & N & _). cbn [In] in N. unfold name_value.
  rewrite !(proj2 (eqb_neq _ _)) by (intros ->; tauto).
  replace (mem class (namespace node_classes)) with true; [reflexivity|]. symmetry. apply mem_In.
  unfold namespace. apply filter_In. split.
  - right. apply (@in_map _ _ fst _ (class, fields)). now apply dget_Some_In.
  - rewrite (proj2 (eqb_neq _ _)) by (intros ->; tauto). reflexivity.
Qed.
Lemma evaluates v : tree node_classes v -> eval_node (expr_of v) = Some (canonical v).
Proof.
  induction v as [c|l IH|class l IH|class] using value_ind'; intros T.
  - inversion T as [c' Hc| |]; subst. destruct c'; try reflexivity.
    cbn [expr_of literal_expr canonical RawNodes.eval_node]. unfold name_value.
    change ($"Ellipsis" == $"None") with false. change ($"Ellipsis" == $"True") with false. change ($"Ellipsis" == $"False") with false.
    replace (mem $"Ellipsis" (namespace node_classes)) with false; [now rewrite eqb_refl|].
    symmetry. apply mem_not_In. intros H. apply filter_In in H. destruct H as [_ H]. now rewrite eqb_refl in H.
  - inversion T as [|l' Hl|]; subst. cbn [expr_of canonical RawNodes.eval_node].
    match goal with |- option_map VList ?x = _ => enough (x = Some (map canonical l)) as -> by reflexivity end.
    clear T. induction IH as [|v l Hv IH' IH]; cbn [map]; [reflexivity|].
    rewrite (Hv (Hl v (or_introl eq_refl))). rewrite IH by (intros x Hx; apply Hl; now right). reflexivity.
  - inversion T as [| |class' fields l' E L Hl]; subst. cbn [expr_of canonical RawNodes.eval_node].
    assert (EF : fields_of node_classes class = fields) by (unfold fields_of; now rewrite E). rewrite EF, (class_name _ E).
    match goal with |- match ?x with Some _ => _ | None => _ end = _ => enough (x = Some (arguments canonical false fields l)) as -> end.
    { rewrite EF. rewrite construct_all; [reflexivity| |exact L]. now apply (HP class E). }
    clear T L E EF. revert fields. generalize false. induction IH as [|a l Ha IH' IH]; intros k [|[n o] fs]; try reflexivity.
    assert (Hl' : forall v, In (Some v) l -> tree node_classes v) by (intros v Hv; apply Hl; now right).
    cbn [arguments]. destruct a as [v|]; [|now apply IH]. destruct (is_none v && o); [now apply IH|].
    rewrite (Ha (Hl v (or_introl eq_refl))), IH by assumption. reflexivity.
  - inversion T.
Qed.
Lemma same_canonical v : tree node_classes v -> same node_classes v (canonical v).
Proof.
  induction v as [c|l IH|class l IH|class] using value_ind'; intros T.
  - constructor.
  - inversion T as [|l' Hl|]; subst. cbn [canonical]. constructor. clear T.
    induction IH as [|v l Hv IH' IH]; cbn [map]; constructor; [apply Hv, Hl; now left|apply IH; intros x Hx; apply Hl; now right].
  - inversion T as [| |class' fields l' E L Hl]; subst. cbn [canonical].
    assert (EF : fields_of node_classes class = fields) by (unfold fields_of; now rewrite E). rewrite EF.
    econstructor; [exact E|]. clear T E EF. revert fields L. induction IH as [|a l Ha IH' IH]; intros [|[n o] fs] L; try discriminate L; [constructor|].
    injection L as L. assert (Hl' : forall v, In (Some v) l -> tree node_classes v) by (intros v Hv; apply Hl; now right).
    cbn [canonical_attributes]. destruct a as [v|].
    + destruct (is_none v && o) eqn:Eo; [|eapply sa_both; [reflexivity|reflexivity| |now apply IH]; apply Ha, Hl; now left].
      apply Bool.andb_true_iff in Eo. destruct Eo as [Ev ->]. destruct v as [[[]| |]| | |]; try discriminate Ev.
      eapply sa_both; [reflexivity|reflexivity|constructor|now apply IH].
    + destruct o.
      * eapply sa_both; [reflexivity|reflexivity|constructor|now apply IH].
      * apply sa_neither; [reflexivity|reflexivity|now apply IH].
  - inversion T.
Qed.
Lemma raw_round_trip class attributes : tree node_classes (VNode class attributes) ->
  exists n v, same node_classes (VNode class attributes) v
    /\ forall fuel, n <= fuel -> from_raw node_classes fuel (to_raw printable node_classes (VNode class attributes)) = Some v.
Proof.
  intros T. pose proof (dump_shows T) as S. apply shows_reads in S. destruct S as [n R].
  exists n, (canonical (VNode class attributes)). split; [now apply same_canonical|].
  intros fuel Hf. unfold from_raw, to_raw. rewrite (R fuel Hf), (evaluates T). reflexivity.
Qed.
End Raw.
