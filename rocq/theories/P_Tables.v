(** The database of stubs through its cache file: property C78. *)
From Verif Require Import Base PyText PyExpr SpecData Pretty CachingProofs Scoping Signatures StoredTables SpecTables TablesProofs.

(** C78: the process that built the tables works with them ([uses]), and a later one, that
    loads them, with tables that answer every lookup alike. *)
Theorem C78_loaded_tables :
  forall printable t s, Forall proper (saved t) -> valid_str s ->
    uses (saved t) t /\
    exists n t', same_tables t t' /\ forall fuel, n <= fuel -> forall main build,
      let file := file_text printable (combine table_names (saved t) ++ [(version_name, DStr s)]) in
      let r := start printable fuel table_names version_name (DStr s) main build (Some file) in
      rebuilt r = false /\ uses (used r) t'.
Proof.
  intros printable t s P V. split; [apply saved_uses|].
  assert (I : Forall (fun n => is_identifier n = true) table_names) by (repeat constructor).
  assert (N : NoDup (table_names ++ [version_name])).
  { cbn [table_names version_name app]. repeat constructor; cbn [In]; intros H; repeat (destruct H as [H|H]; [discriminate H|]); destruct H. }
  destruct (@load_saved_file printable table_names version_name I eq_refl N (saved t) s eq_refl P V) as (ds & F & [n L] & _).
  destruct (tables_used P F) as (t' & U & S). exists n, t'. split; [exact S|]. intros fuel Hf main build. cbn zeta. unfold start.
  specialize (L fuel Hf). unfold saved_file in L. rewrite L, rev_app_distr. cbn [rev app]. rewrite eqb_refl. cbn [rebuilt used].
  split; [reflexivity|]. now rewrite rev_involutive.
Qed.
Print Assumptions C78_loaded_tables.

(** So are all tables that can exist: what is saved of them is made of dictionaries with
    distinct hashable keys. *)
Lemma path_data_injective p p' : path_data p = path_data p' -> p = p'.
Proof.
  intros [= E]. revert p' E. induction p as [|x p IH]; intros [|x' p']; intros E; try discriminate; [reflexivity|].
  cbn [map] in E. injection E as E1 E2. f_equal; auto.
Qed.
Lemma path_data_hashable p : hashable (path_data p) = true.
Proof. unfold path_data. cbn [hashable]. induction p; [reflexivity|exact IHp]. Qed.
Lemma proper_all l : Forall proper l -> fold_right (fun x P => proper x /\ P) True l.
Proof. induction 1; cbn; auto. Qed.
Lemma path_data_proper p : valid_path p -> proper (path_data p).
Proof. intros V. apply proper_all. induction V; cbn [map]; constructor; auto. Qed.
Lemma qualified_proper q : valid_qualified q -> proper (qualified_path_data q).
Proof. intros [H1 H2]. apply proper_all. auto using path_data_proper. Qed.
Lemma list_proper A (value : A -> data) (ok : A -> Prop) l : (forall a, ok a -> proper (value a)) -> Forall ok l -> proper (list_data value l).
Proof. intros H F. apply proper_all. induction F; cbn [map]; constructor; auto. Qed.
Lemma dict_proper K A (key : K -> data) (value : A -> data) (okk : K -> Prop) (oka : A -> Prop) (d : dict K A) :
  (forall k k', key k = key k' -> k = k') -> (forall k, hashable (key k) = true) -> (forall k, okk k -> proper (key k)) ->
  (forall a, oka a -> proper (value a)) -> is_dict okk oka d -> proper (dict_data key value d).
Proof.
  intros Inj Hh Hk Ha [N F]. unfold dict_data, dict in *. cbn [proper]. repeat split.
  - induction F as [|[k a] d [Fk Fa] F IH]; [exact I|]. cbn [map fold_right fst snd] in *. inversion N; subst. repeat split; auto.
  - clear - Hh. induction d as [|[k a] d IH]; [reflexivity|]. cbn [map fst snd forallb]. now rewrite Hh, IH.
  - unfold dkeys in N. rewrite map_map. cbn [fst]. rewrite <- (map_map fst key). clear - N Inj.
    induction N as [|k l Nk N IH]; cbn [map]; constructor; [|exact IH]. intros I. apply in_map_iff in I as (k' & E & I). apply Inj in E. congruence.
Qed.
Lemma scope_proper s : valid_scope s -> proper (scope_data s).
Proof.
  induction s as [es IH] using scope_ind'. intros V. inversion V as [es' N H]; subst. cbn [scope_data].
  pose proof (@dict_proper _ _ DStr scope_data valid_str (fun s => proper (scope_data s)) es) as D. unfold dict_data in D. apply D.
  - intros k k' [= E]. exact E.
  - reflexivity.
  - auto.
  - auto.
  - split; [exact N|]. apply Forall_forall. intros [n s] I. destruct (H n s I) as [V1 V2]. split; [exact V1|].
    exact (proj1 (Forall_forall _ _) IH _ I V2).
Qed.
Theorem C78_proper :
  forall t, valid_tables t -> Forall proper (saved t).
Proof.
  intros t ((D & R & S & Sc) & Ki & Ra).
  assert (P : forall A (value : A -> data) (ok : A -> Prop) (d : dict path A),
    (forall a, ok a -> proper (value a)) -> is_dict valid_path ok d -> proper (dict_data path_data value d)).
  { intros A value ok d H I. eapply dict_proper; [exact path_data_injective|exact path_data_hashable|exact path_data_proper|exact H|exact I]. }
  unfold saved, saved_data. repeat apply Forall_cons; try apply Forall_nil.
  - eapply P; [|exact D]. apply scope_proper.
  - unfold raw_kinds. apply (P _ _ (is_dict valid_path (fun _ => True))).
    + intros o. apply (P _ _ (fun _ => True)). intros z _. exact I.
    + destruct Ki as [N F]. split.
      * unfold dkeys, dict in *. rewrite map_map. exact N.
      * apply Forall_map. apply (Forall_impl _ (fun a H => H)) in F. revert F. apply Forall_impl. intros [k o] [V [N' F']]. cbn [fst snd] in *.
        split; [exact V|]. split.
        -- unfold dkeys, dict in *. rewrite map_map. exact N'.
        -- apply Forall_map. revert F'. apply Forall_impl. intros [k' z] [V' _]. now split.
  - eapply P; [|exact Ra]. intros o. eapply P. intros l. apply list_proper. auto.
  - eapply P; [|exact R]. intros o. eapply P. apply qualified_proper.
  - eapply P; [|exact S]. intros o. apply list_proper. apply path_data_proper.
  - eapply P; [|exact Sc]. intros o. eapply P. intros l. apply list_proper. apply qualified_proper.
Qed.
Print Assumptions C78_proper.

(** With such tables, names are resolved alike. *)
Theorem C78_same_resolution :
  forall t t', same_tables t t' -> forall fuel module_path parent_path object_path visited,
    resolve_object_path (stored t) fuel module_path parent_path object_path visited
    = resolve_object_path (stored t') fuel module_path parent_path object_path visited.
Proof. intros t t' [S _]. now apply resolve_same. Qed.
Print Assumptions C78_same_resolution.

Definition example_tables : tables :=
  mk_tables
    (mk_database
       [([$"typing"], Scope [($"z", Scope []); ($"A", Scope [($"f", Scope [])])]); ([$"os"; $"path"], Scope [])]
       [([$"typing"], [([$"B"], ([$"os"; $"path"], [$"C"; $"D"]))]); ([$"os"; $"path"], [])]
       [([$"typing"], [[$"os"; $"path"]; [$"abc"]]); ([$"os"; $"path"], [])]
       [([$"typing"], [([$"A"], [([$"builtins"], [$"object"])])])])
    [([$"typing"], [([$"z"], ASSIGNMENT); ([$"A"], CLASS); ([$"A"; $"f"], FUNCTION)]); ([$"os"; $"path"], [])]
    [([$"typing"], [([$"z"], [$"Assign([Name('z', Store())], Constant(Ellipsis))"])])].
(** The order is that of the texts; longer paths start with a line break. *)
Definition example_loaded : tables :=
  mk_tables
    (mk_database
       [([$"os"; $"path"], Scope []); ([$"typing"], Scope [($"A", Scope [($"f", Scope [])]); ($"z", Scope [])])]
       [([$"os"; $"path"], []); ([$"typing"], [([$"B"], ([$"os"; $"path"], [$"C"; $"D"]))])]
       [([$"os"; $"path"], []); ([$"typing"], [[$"os"; $"path"]; [$"abc"]])]
       [([$"typing"], [([$"A"], [([$"builtins"], [$"object"])])])])
    [([$"os"; $"path"], []); ([$"typing"], [([$"A"; $"f"], FUNCTION); ([$"A"], CLASS); ([$"z"], ASSIGNMENT)])]
    [([$"typing"], [([$"z"], [$"Assign([Name('z', Store())], Constant(Ellipsis))"])])].
Definition printable (c : N) : bool := ((32 <=? c) && (c <=? 126))%N.
Definition example_start :=
  start printable 200 table_names version_name (DStr $"1") true []
    (Some (file_text printable (combine table_names (saved example_tables) ++ [(version_name, DStr $"1")]))).
Example C78_example : rebuilt example_start = false /\ used example_start = saved example_loaded.
Proof. vm_compute. auto. Qed.
