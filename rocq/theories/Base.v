(** Basic vocabulary shared by all model files: Python strings, decidable
    equality, exceptions as values, insertion-ordered dictionaries, slices.
    Nothing here is specific to paradigm. *)
From Coq Require Export Ascii String.
From Coq Require Export List NArith ZArith Bool Lia Permutation.
From Coq Require Export Sorting.Sorted.
Export ListNotations.
Set Implicit Arguments.
Open Scope list_scope.

Ltac inv H := inversion H; subst; clear H.

(** ** Decidable equality *)

Class Eqb (A : Type) := {
  eqb : A -> A -> bool;
  eqb_eq : forall x y, eqb x y = true <-> x = y
}.
Infix "==" := eqb (at level 70, no associativity).
Arguments eqb : simpl never.

Lemma eqb_refl {A} `{Eqb A} (x : A) : x == x = true.
Proof. now apply eqb_eq. Qed.

Lemma eqb_neq {A} `{Eqb A} (x y : A) : x == y = false <-> x <> y.
Proof.
  destruct (x == y) eqn:E.
  - apply eqb_eq in E. split; [discriminate | congruence].
  - split; [|reflexivity]. intros _ Hxy. apply eqb_eq in Hxy. congruence.
Qed.

Lemma eqb_sym {A} `{Eqb A} (x y : A) : x == y = (y == x).
Proof.
  destruct (y == x) eqn:E.
  - apply eqb_eq in E. subst. apply eqb_refl.
  - apply eqb_neq in E. apply eqb_neq. congruence.
Qed.

Lemma eqb_to_eq {A} `{Eqb A} (x y : A) : x == y = true -> x = y.
Proof. apply eqb_eq. Qed.

Lemma eqb_reflect {A} `{Eqb A} (x y : A) : reflect (x = y) (x == y).
Proof.
  destruct (x == y) eqn:E; constructor.
  - now apply eqb_eq.
  - now apply eqb_neq.
Qed.

#[export] Instance Eqb_N : Eqb N := { eqb := N.eqb; eqb_eq := N.eqb_eq }.
#[export] Instance Eqb_nat : Eqb nat := { eqb := Nat.eqb; eqb_eq := Nat.eqb_eq }.
#[export] Instance Eqb_Z : Eqb Z := { eqb := Z.eqb; eqb_eq := Z.eqb_eq }.
#[export] Instance Eqb_bool : Eqb bool := { eqb := Bool.eqb; eqb_eq := Bool.eqb_true_iff }.

Fixpoint list_eqb {A} `{Eqb A} (xs ys : list A) : bool :=
  match xs, ys with
  | [], [] => true
  | x :: xs', y :: ys' => (x == y) && list_eqb xs' ys'
  | _, _ => false
  end.

Lemma list_eqb_eq {A} `{Eqb A} (xs ys : list A) : list_eqb xs ys = true <-> xs = ys.
Proof.
  revert ys; induction xs as [|x xs IH]; intros [|y ys]; cbn; try easy.
  rewrite andb_true_iff, eqb_eq, IH. split; [intros [-> ->]; easy | intros E; now injection E].
Qed.

#[export] Instance Eqb_list {A} `{Eqb A} : Eqb (list A) :=
  { eqb := list_eqb; eqb_eq := list_eqb_eq }.

Definition prod_eqb {A B} `{Eqb A} `{Eqb B} (x y : A * B) : bool :=
  (fst x == fst y) && (snd x == snd y).

Lemma prod_eqb_eq {A B} `{Eqb A} `{Eqb B} (x y : A * B) : prod_eqb x y = true <-> x = y.
Proof.
  destruct x as [a b], y as [c d]; unfold prod_eqb; cbn.
  rewrite andb_true_iff, !eqb_eq. split; [intros [-> ->]; easy | intros E; now injection E].
Qed.

#[export] Instance Eqb_prod {A B} `{Eqb A} `{Eqb B} : Eqb (A * B) :=
  { eqb := prod_eqb; eqb_eq := prod_eqb_eq }.

Definition option_eqb {A} `{Eqb A} (x y : option A) : bool :=
  match x, y with
  | Some a, Some b => a == b
  | None, None => true
  | _, _ => false
  end.

Lemma option_eqb_eq {A} `{Eqb A} (x y : option A) : option_eqb x y = true <-> x = y.
Proof.
  destruct x as [a|], y as [b|]; cbn; try easy.
  rewrite eqb_eq. split; [intros ->; easy | intros E; now injection E].
Qed.

#[export] Instance Eqb_option {A} `{Eqb A} : Eqb (option A) :=
  { eqb := option_eqb; eqb_eq := option_eqb_eq }.

(** ** Python strings: sequences of code points *)

Definition pystr := list N.

Fixpoint lit (s : string) : pystr :=
  match s with
  | EmptyString => []
  | String a s' => N_of_ascii a :: lit s'
  end.
Notation "$ s" := (lit s%string) (at level 1, format "$ s").

(** [catalog.Path] and [catalog.QualifiedPath] (paradigm/_core/catalog.py:8-9). *)
Definition path := list pystr.
Definition qualified_path := (path * path)%type.

(** ** Exceptions as values *)

Inductive exc :=
| TypeError | ValueError | KeyError | IndexError | AttributeError
| AssertionError | StopIteration | NameError | SyntaxErr | ImportError
| OtherException            (* any other subclass of [Exception] *)
| RecursionError.           (* the explicit fuel of a recursive model ran out *)

Inductive res (A : Type) :=
| Ok (a : A)
| Err (e : exc).
Arguments Ok {A}.
Arguments Err {A}.

Definition bind_res {A B} (x : res A) (f : A -> res B) : res B :=
  match x with
  | Ok a => f a
  | Err e => Err e
  end.
Notation "'let*' x ':=' a 'in' b" := (bind_res a (fun x => b))
  (at level 200, x pattern, a at level 100, b at level 200).

Definition map_res {A B} (f : A -> B) (x : res A) : res B :=
  match x with
  | Ok a => Ok (f a)
  | Err e => Err e
  end.

Definition is_ok {A} (x : res A) : bool :=
  match x with Ok _ => true | Err _ => false end.

(** [[f(x) for x in xs]] where [f] may raise: left to right, first exception wins. *)
Section MapM.
Context {A B : Type} (f : A -> res B).
Fixpoint map_m (xs : list A) : res (list B) :=
  match xs with
  | [] => Ok []
  | x :: xs' => let* y := f x in let* ys := map_m xs' in Ok (y :: ys)
  end.
End MapM.

Definition exc_eqb (x y : exc) : bool :=
  match x, y with
  | TypeError, TypeError | ValueError, ValueError | KeyError, KeyError
  | IndexError, IndexError | AttributeError, AttributeError
  | AssertionError, AssertionError | StopIteration, StopIteration
  | NameError, NameError | SyntaxErr, SyntaxErr | ImportError, ImportError
  | OtherException, OtherException | RecursionError, RecursionError => true
  | _, _ => false
  end.
Lemma exc_eqb_eq x y : exc_eqb x y = true <-> x = y.
Proof. destruct x, y; cbn; split; congruence. Qed.
#[export] Instance Eqb_exc : Eqb exc := { eqb := exc_eqb; eqb_eq := exc_eqb_eq }.

Lemma map_m_ok {A B} (f : A -> res B) xs ys :
  map_m f xs = Ok ys <-> Forall2 (fun x y => f x = Ok y) xs ys.
Proof.
  revert ys; induction xs as [|x xs IH]; intros ys; cbn.
  - split; [intros E; injection E as <-; constructor | intros F; now inversion F].
  - destruct (f x) as [y|e] eqn:Ex; cbn.
    + destruct (map_m f xs) as [zs|e] eqn:Em; cbn.
      * split.
        -- intros E; injection E as <-. constructor; [easy|]. now apply IH.
        -- intros F; inversion F as [|? y' ? ys' Hy Hys]; subst.
           rewrite Ex in Hy; injection Hy as <-.
           apply IH in Hys; injection Hys as <-; easy.
      * split; [discriminate|]. intros F; inversion F as [|? y' ? ys' Hy Hys]; subst.
        apply IH in Hys; discriminate.
    + split; [discriminate|]. intros F; inversion F as [|? y' ? ys' Hy Hys]; subst. congruence.
Qed.

(** ** Membership, sets as lists *)

Definition mem {A} `{Eqb A} (x : A) (xs : list A) : bool := existsb (eqb x) xs.

Lemma mem_In {A} `{Eqb A} (x : A) xs : mem x xs = true <-> In x xs.
Proof.
  unfold mem. rewrite existsb_exists. split.
  - intros (y & Hy & E). apply eqb_to_eq in E. now subst.
  - intros Hx. exists x. split; [easy | apply eqb_refl].
Qed.

Lemma mem_not_In {A} `{Eqb A} (x : A) xs : mem x xs = false <-> ~ In x xs.
Proof. rewrite <- mem_In. destruct (mem x xs); split; congruence. Qed.

Definition is_nil {A} (xs : list A) : bool :=
  match xs with [] => true | _ => false end.

Lemma is_nil_true {A} (xs : list A) : is_nil xs = true <-> xs = [].
Proof. destruct xs; cbn; split; congruence. Qed.

(** ** Insertion-ordered dictionaries as association lists *)

Definition dict (K A : Type) := list (K * A).

Section Dict.
Context {K A : Type} `{Eqb K}.

(** [d[k]] / [d.get(k)]: [None] stands for [KeyError] / the default. *)
Fixpoint dget (k : K) (d : dict K A) : option A :=
  match d with
  | [] => None
  | (k', a) :: d' => if k == k' then Some a else dget k d'
  end.

(** [d[k] = a]: an existing key keeps its position, a new one is appended. *)
Fixpoint dset (k : K) (a : A) (d : dict K A) : dict K A :=
  match d with
  | [] => [(k, a)]
  | (k', a') :: d' => if k == k' then (k', a) :: d' else (k', a') :: dset k a d'
  end.

Definition dmem (k : K) (d : dict K A) : bool :=
  match dget k d with Some _ => true | None => false end.

Definition dkeys (d : dict K A) : list K := map fst d.

(** [{k: a for k, a in items}] / [dict(items)] *)
Definition dict_of (items : list (K * A)) : dict K A :=
  fold_left (fun d ka => dset (fst ka) (snd ka) d) items [].

Lemma dget_dset k k' a d : dget k (dset k' a d) = if k == k' then Some a else dget k d.
Proof.
  induction d as [|[k0 a0] d IH]; cbn.
  - reflexivity.
  - destruct (eqb_reflect k' k0) as [->|Hne]; cbn.
    + destruct (k == k0); reflexivity.
    + rewrite IH. destruct (eqb_reflect k k0) as [->|]; [|reflexivity].
      destruct (eqb_reflect k0 k'); [congruence|reflexivity].
Qed.

Lemma dget_cons k k' a d : dget k ((k', a) :: d) = if k == k' then Some a else dget k d.
Proof. reflexivity. Qed.

Lemma dget_Some_In k a d : dget k d = Some a -> In (k, a) d.
Proof.
  induction d as [|[k0 a0] d IH]; cbn; [discriminate|].
  destruct (eqb_reflect k k0) as [->|]; intros E; [injection E as ->; now left | right; auto].
Qed.

Lemma dget_None k d : dget k d = None <-> ~ In k (dkeys d).
Proof.
  unfold dkeys. induction d as [|[k0 a0] d IH]; cbn; [easy|].
  destruct (eqb_reflect k k0) as [->|Hne].
  - split; [discriminate | intros Hn; exfalso; apply Hn; now left].
  - rewrite IH. split; [intros Hn [E|Hin]; [congruence|auto] | auto].
Qed.

Lemma dmem_In k d : dmem k d = true <-> In k (dkeys d).
Proof.
  unfold dmem. destruct (dget k d) eqn:E.
  - split; [|easy]. intros _. apply dget_Some_In in E. apply in_map_iff. now exists (k, a).
  - apply dget_None in E. split; [discriminate | easy].
Qed.

Lemma dmem_not_In k d : dmem k d = false <-> ~ In k (dkeys d).
Proof. rewrite <- dmem_In. destruct (dmem k d); split; congruence. Qed.

Lemma dget_In k a d : NoDup (dkeys d) -> In (k, a) d -> dget k d = Some a.
Proof.
  unfold dkeys. induction d as [|[k0 a0] d IH]; cbn; intros Hnd Hin; [easy|].
  inversion Hnd as [|? ? Hn Hnd']; subst.
  destruct Hin as [E|Hin].
  - injection E as -> ->. now rewrite eqb_refl.
  - destruct (eqb_reflect k k0) as [->|]; [|auto].
    exfalso. apply Hn. apply in_map_iff. now exists (k0, a).
Qed.

Lemma dkeys_dset k a d :
  dkeys (dset k a d) = if dmem k d then dkeys d else dkeys d ++ [k].
Proof.
  unfold dmem. induction d as [|[k0 a0] d IH]; cbn; [reflexivity|].
  destruct (eqb_reflect k k0) as [->|Hne]; cbn; [reflexivity|].
  unfold dkeys in *. rewrite IH. destruct (dget k d); reflexivity.
Qed.

Lemma NoDup_app_single {B} (xs : list B) x : NoDup xs -> ~ In x xs -> NoDup (xs ++ [x]).
Proof.
  intros Hnd Hn. induction xs as [|y xs IH]; cbn.
  - constructor; [easy | constructor].
  - inversion Hnd as [|? ? Hy Hnd']; subst. constructor.
    + rewrite in_app_iff. intros [Hin|[->|[]]]; [easy | apply Hn; now left].
    + apply IH; [easy | intros Hin; apply Hn; now right].
Qed.

Lemma NoDup_dset k a d : NoDup (dkeys d) -> NoDup (dkeys (dset k a d)).
Proof.
  intros Hnd. rewrite dkeys_dset. destruct (dmem k d) eqn:E; [easy|].
  apply NoDup_app_single; [easy | now apply dmem_not_In].
Qed.

Lemma dset_new k a d : ~ In k (dkeys d) -> dset k a d = d ++ [(k, a)].
Proof.
  unfold dkeys. induction d as [|[k0 a0] d IH]; cbn; intros Hn; [reflexivity|].
  destruct (eqb_reflect k k0) as [->|]; [exfalso; apply Hn; now left|].
  rewrite IH; [reflexivity | auto].
Qed.

Lemma dict_of_NoDup items : NoDup (map fst items) -> dict_of items = items.
Proof.
  unfold dict_of. intros Hnd.
  enough (G : forall d, NoDup (map fst (d ++ items)) ->
    fold_left (fun d ka => dset (fst ka) (snd ka) d) items d = d ++ items).
  { rewrite G; [reflexivity | exact Hnd]. }
  clear Hnd. induction items as [|[k a] items IH]; intros d Hnd; cbn.
  - now rewrite app_nil_r.
  - rewrite dset_new.
    + rewrite IH; rewrite <- app_assoc; [reflexivity | exact Hnd].
    + rewrite map_app in Hnd. apply NoDup_remove_2 in Hnd.
      intros Hin. apply Hnd. apply in_or_app. now left.
Qed.

End Dict.

Arguments dget : simpl nomatch.
Arguments dset : simpl nomatch.

(** ** [itertools.takewhile] *)
Fixpoint take_while {A} (f : A -> bool) (xs : list A) : list A :=
  match xs with
  | [] => []
  | x :: xs' => if f x then x :: take_while f xs' else []
  end.

(** ** Index of the first element satisfying a predicate
    ([next(i for i, x in enumerate(xs) if f(x))]; [None] = [StopIteration]) *)
Fixpoint find_index {A} (f : A -> bool) (xs : list A) : option nat :=
  match xs with
  | [] => None
  | x :: xs' => if f x then Some 0 else option_map S (find_index f xs')
  end.

(** ** [sep.join(parts)] *)
Fixpoint join (sep : pystr) (parts : list pystr) : pystr :=
  match parts with
  | [] => []
  | [p] => p
  | p :: ps => p ++ sep ++ join sep ps
  end.
