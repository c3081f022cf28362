(** Properties C41 and C65: dotted names and the qualified names of objects. *)
From Verif Require Import Base Catalog SpecCatalog CatalogProofs.

(** ** C41 *)
Theorem C41_splitting_reads_the_spelling :
  forall s p, path_from_string s = p <-> spelled 46 p s.
Proof. exact (fun s p => @split_spelled 46 p s). Qed.
Print Assumptions C41_splitting_reads_the_spelling.

Theorem C41_name_round_trip : forall s, path_to_string (path_from_string s) = s.
Proof. exact (join_split 46). Qed.
Print Assumptions C41_name_round_trip.

Theorem C41_path_round_trip :
  forall p, path_from_string (path_to_string p) = p <-> p <> [] /\ Forall (fun part => ~ In 46%N part) p.
Proof. exact (split_join 46). Qed.
Print Assumptions C41_path_round_trip.

(** The parent of a dotted name is what comes before the last dot; names without a dot
    are no attributes and their parent is the module itself. *)
Theorem C41_parents :
  forall s n, ~ In 46%N n ->
    is_attribute (path_from_string n) = false /\ path_to_parent (path_from_string n) = []
    /\ is_attribute (path_from_string (s ++ 46%N :: n)) = true
    /\ path_to_parent (path_from_string (s ++ 46%N :: n)) = path_from_string s.
Proof.
  intros s n Hn. assert (E : path_from_string n = [n]) by (apply C41_splitting_reads_the_spelling; now constructor).
  assert (A : path_from_string (s ++ 46%N :: n) = path_from_string s ++ [n]).
  { apply C41_splitting_reads_the_spelling.
    generalize (proj1 (C41_splitting_reads_the_spelling s _) eq_refl). generalize (path_from_string s).
    intros p Hp. induction Hp as [p Hp|p ps s Hp Hs IH]; cbn.
    - constructor; [easy|now constructor].
    - rewrite <- app_assoc. cbn. now constructor. }
  rewrite E, A. unfold is_attribute, path_to_parent. rewrite removelast_last, app_length.
  repeat split. assert (path_from_string s <> []) by apply split_on_nonempty.
  destruct (path_from_string s); [congruence|]. apply Nat.ltb_lt. cbn [length]. lia.
Qed.
Print Assumptions C41_parents.

Example C41_example :
  path_to_parent (path_from_string $"os.path.join") = [$"os"; $"path"] /\ is_attribute [$"os"] = false
  /\ path_from_string $"os.path" = [$"os"; $"path"] /\ path_to_string [$"os"; $"path"] = $"os.path"
  /\ path_from_string $"" = [$""] /\ path_from_string $"a..b" = [$"a"; $""; $"b"].
Proof. repeat split. Qed.
(** Neither condition can be dropped. *)
Example C41_example_conditions :
  path_from_string (path_to_string []) = [[]]
  /\ path_from_string (path_to_string [$"a.b"]) = [$"a"; $"b"].
Proof. split; reflexivity. Qed.

(** ** C65 *)
(** What Python says about an object: the text of its module and its qualified
    name, when it has them. *)
Inductive describes : value -> option pystr -> pystr -> Prop :=
| d_class m q : describes (TypeValue (mk_type m q)) (Some m) q
| d_function m q : describes (PythonFunction m q) m q
| d_descriptor m c q : describes (Descriptor (mk_type m c) q) (Some m) q
| d_builtin_of_class m c q : describes (BuiltinFunction (OwnerType (mk_type m c)) q) (Some m) q
| d_builtin_of_module n q : describes (BuiltinFunction (OwnerModule (mk_module n None)) q) (Some n) q
| d_builtin_of_spec n s q : describes (BuiltinFunction (OwnerModule (mk_module n (Some s))) q) (Some s) q
| d_builtin_of_nothing q : describes (BuiltinFunction OwnerNone q) None q.

Theorem C65_qualified_path :
  forall v module name,
    describes v module name ->
    (forall text, module = Some text -> spelled 46 (fst (qualified_path_from v)) text)
    /\ (module = None -> fst (qualified_path_from v) = [])
    /\ spelled 46 (snd (qualified_path_from v)) name.
Proof.
  assert (S : forall s, spelled 46 (path_from_string s) s) by (intros s; now apply C41_splitting_reads_the_spelling).
  intros v module name D. destruct D as [m q|m q|m c q|m c q|n q|n s q|q]; cbn [qualified_path_from fst snd type_module type_qualname].
  all: repeat split; try apply S; try discriminate.
  all: try (intros text E; injection E as <-; apply S).
  - intros text ->. apply S.
  - now intros ->.
Qed.
Print Assumptions C65_qualified_path.
Theorem C65_object_path :
  forall v module name, describes v module name -> spelled 46 (object_path_from_callable v) name.
Proof. intros v module name D. exact (proj2 (proj2 (C65_qualified_path v module name D))). Qed.
Print Assumptions C65_object_path.

(** Everything else has no qualified name, and only the methods of instances and
    objects of other types. *)
Theorem C65_nameless :
  forall v, qualified_path_from v = ([], []) <-> forall module name, ~ describes v module name.
Proof.
  assert (N : forall s, path_from_string s <> []) by (intros s; apply split_on_nonempty).
  intros v. split.
  - intros E module name D. apply (f_equal snd) in E. destruct D; cbn [qualified_path_from snd] in E; eapply N; exact E.
  - intros H. destruct v as [[[m c]|[n [s|]]| |] q|m q|[m c] q|[m q]|]; cbn; try reflexivity;
      exfalso; eapply H; constructor.
Qed.
Print Assumptions C65_nameless.

(** Objects described alike have the same qualified path, others a different one. *)
Theorem C65_injective :
  forall v v' module module' name name',
    describes v module name -> describes v' module' name' ->
    (qualified_path_from v = qualified_path_from v' <-> module = module' /\ name = name').
Proof.
  intros v v' m m' n n' D D'.
  destruct (C65_qualified_path v m n D) as (H1 & H2 & H3). destruct (C65_qualified_path v' m' n' D') as (H1' & H2' & H3').
  destruct (qualified_path_from v) as [p q], (qualified_path_from v') as [p' q']. cbn [fst snd] in *. split.
  - intros E. injection E as <- <-. split; [|eapply spelled_functional; eassumption].
    destruct m as [m|], m' as [m'|].
    + f_equal. eapply spelled_functional; eauto.
    + specialize (H1 m eq_refl). rewrite (H2' eq_refl) in H1. inv H1.
    + specialize (H1' m' eq_refl). rewrite (H2 eq_refl) in H1'. inv H1'.
    + reflexivity.
  - intros [<- <-]. f_equal; [|eapply spelled_injective; eassumption].
    destruct m as [m|]; [eapply spelled_injective; eauto|]. now rewrite H2, H2'.
Qed.
Print Assumptions C65_injective.

(** [collections.OrderedDict.move_to_end], [len] and [''.join] *)
Example C65_example :
  qualified_path_from (Descriptor (mk_type $"collections" $"OrderedDict") $"OrderedDict.move_to_end")
  = ([$"collections"], [$"OrderedDict"; $"move_to_end"])
  /\ qualified_path_from (BuiltinFunction (OwnerModule (mk_module $"builtins" (Some $"builtins"))) $"len")
     = ([$"builtins"], [$"len"])
  /\ qualified_path_from (BuiltinFunction OwnerInstance $"str.join") = ([], []).
Proof. repeat split. Qed.
