(** Property C83: the texts that stand for annotations of evaluated functions. *)
From Verif Require Import Base PyText PyExpr Ast LazyText SpecLazyText LazyTextProofs.

(** ** C83 *)
(** The text of an annotation that needs no parentheses and no quotes is read back as
    that annotation. Missing: annotations with strings, [...], grouping of operators
    (see below) and calls. *)
Theorem C83_reads_back_partial :
  forall e, plain e -> exists text, to_str e = Ok text /\ reads_as text e.
Proof. intros e P. exact (plain_reads P). Qed.
Print Assumptions C83_reads_back_partial.
(** A text is read in one way, so different annotations have different texts. *)
Theorem C83_one_reading :
  forall text e e', reads_as text e -> reads_as text e' -> e = e'.
Proof. intros t e e' R R'. exact (reads_once R R'). Qed.
Print Assumptions C83_one_reading.
Theorem C83_texts_differ_partial :
  forall e e' text, plain e -> plain e' -> to_str e = Ok text -> to_str e' = Ok text -> e = e'.
Proof.
  intros e e' text P P' E E'. destruct (plain_reads P) as (t & Et & R), (plain_reads P') as (t' & Et' & R').
  rewrite Et in E. rewrite Et' in E'. injection E as ->. injection E' as ->. exact (reads_once R R').
Qed.
Print Assumptions C83_texts_differ_partial.
(** Functions: only annotations are changed, each to a text for it. *)
Theorem C83_functions_partial :
  forall f, function_ok f -> exists f', lazy_function f = Ok f' /\ texts_for_function f f'.
Proof. exact lazy_function_ok. Qed.
Print Assumptions C83_functions_partial.
(** The same syntax tree may be evaluated again. *)
Theorem C83_twice :
  forall f f', lazy_function f = Ok f' -> lazy_function f' = Ok f'.
Proof. exact lazy_function_again. Qed.
Print Assumptions C83_twice.

(** [x.Dict[str, (+(1),)] | None] *)
Example C83_example :
  let e := BinOp (Subscript (Attribute (Name $"x") $"Dict") (Tuple [Name $"str"; Tuple [UnaryOp UAdd (Constant (CInt 1))]]))
             BitOr (Constant CNone) in
  plain e /\ to_str e = Ok $"x.Dict[(str, (+(1),))] | None" /\ tree 60 0 $"x.Dict[(str, (+(1),))] | None" = Some (e, []).
Proof.
  split; [|split; reflexivity].
  repeat (constructor; try reflexivity; try discriminate; try (cbn; lia); try (vm_compute; intuition discriminate)).
Qed.
(** The reader knows Python's precedence, and other spellings. *)
Example C83_reader_example :
  reads_as $"a | b & c ^d" (BinOp (Name $"a") BitOr (BinOp (BinOp (Name $"b") BitAnd (Name $"c")) BitXor (Name $"d")))
  /\ reads_as $"a[b, ]" (Subscript (Name $"a") (Tuple [Name $"b"]))
  /\ reads_as $"a[(b)]" (Subscript (Name $"a") (Name $"b"))
  /\ reads_as $"a | (b | c)" (BinOp (Name $"a") BitOr (BinOp (Name $"b") BitOr (Name $"c")))
  /\ tree 30 0 $"a b" = Some (Name $"a", $" b") /\ tree 30 0 $"01" = None /\ tree 30 0 $"a.if" = None.
Proof.
  repeat split; try reflexivity; exists 30; intros n H; do 30 (destruct n as [|n]; [lia|]); reflexivity.
Qed.

(** Texts that are read as something else: the texts of strings are without quotes,
    so [Literal['a']] becomes [Literal[a]] ... *)
Theorem C83_strings_refuted :
  exists e e' text, to_str e = Ok text /\ reads_as text e' /\ e <> e'
    /\ e = Subscript (Name $"Literal") (Constant (CStr $"a")) /\ e' = Subscript (Name $"Literal") (Name $"a").
Proof.
  do 3 eexists. repeat split; try reflexivity; [|discriminate].
  exists 30. intros n H. do 30 (destruct n as [|n]; [lia|]). reflexivity.
Qed.
Print Assumptions C83_strings_refuted.
(** ... or not at all: [Literal['a b']] *)
Theorem C83_syntax_refuted :
  exists e text, to_str e = Ok text /\ e = Subscript (Name $"Literal") (Constant (CStr $"a b")) /\ forall e', ~ reads_as text e'.
Proof.
  do 2 eexists. repeat split; try reflexivity. intros e' [n H]. specialize (H (n + 30) ltac:(lia)).
  rewrite Nat.add_comm in H. discriminate H.
Qed.
Print Assumptions C83_syntax_refuted.
(** [...] becomes a name. *)
Theorem C83_ellipsis_refuted :
  exists e e' text, to_str e = Ok text /\ reads_as text e' /\ e <> e'
    /\ e = Subscript (Name $"Tuple") (Tuple [Name $"int"; Constant CEllipsis])
    /\ e' = Subscript (Name $"Tuple") (Tuple [Name $"int"; Name $"Ellipsis"]).
Proof.
  do 3 eexists. repeat split; try reflexivity; [|discriminate].
  exists 30. intros n H. do 30 (destruct n as [|n]; [lia|]). reflexivity.
Qed.
Print Assumptions C83_ellipsis_refuted.
(** Parentheses around operators are lost: [(a | b) & c], [a ^ (b ^ c)]. *)
Theorem C83_grouping_refuted :
  exists e e' text, to_str e = Ok text /\ reads_as text e' /\ e <> e'
    /\ e = BinOp (BinOp (Name $"a") BitOr (Name $"b")) BitAnd (Name $"c")
    /\ e' = BinOp (Name $"a") BitOr (BinOp (Name $"b") BitAnd (Name $"c")).
Proof.
  do 3 eexists. repeat split; try reflexivity; [|discriminate].
  exists 30. intros n H. do 30 (destruct n as [|n]; [lia|]). reflexivity.
Qed.
Print Assumptions C83_grouping_refuted.
(** Annotations that are calls have no text, so that the function is not evaluated. *)
Theorem C83_calls_refuted :
  exists e, to_str e = Err TypeError /\ e = Call (Name $"f") [] [].
Proof. exists (Call (Name $"f") [] []). split; reflexivity. Qed.
Print Assumptions C83_calls_refuted.

(** [def f(x: int, *args: 'y', **kwargs) -> None] *)
Example C83_function_example :
  let f r x y := mk_function_def $"f"
             (mk_arguments [] [mk_arg $"x" (Some x)] (Some (mk_arg $"args" (Some y))) [] [] (Some (mk_arg $"kwargs" None)) []) [] (Some r) in
  let before := f (Constant CNone) (Name $"int") (Constant (CStr $"y")) in
  function_ok before
  /\ lazy_function before = Ok (f (Constant (CStr $"None")) (Constant (CStr $"int")) (Constant (CStr $"y"))).
Proof.
  split; [|reflexivity]. repeat split; cbn; repeat constructor; cbn; repeat constructor; vm_compute; intuition discriminate.
Qed.
