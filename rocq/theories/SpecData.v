(** Specification only: literal data (what the caches hold), Python's equality
    on them and the value of a literal expression. Written without any function of
    the model of paradigm. *)
From Verif Require Import Base PyText PyExpr.

(** A dictionary or set is listed in its iteration order. *)
Inductive data :=
| DStr (s : pystr)
| DInt (z : Z)
| DTuple (elements : list data)
| DList (elements : list data)
| DDict (items : list (data * data))
| DSet (elements : list data).

Section Ind.
Variable P : data -> Prop.
Hypothesis HStr : forall s, P (DStr s).
Hypothesis HInt : forall z, P (DInt z).
Hypothesis HTuple : forall l, Forall P l -> P (DTuple l).
Hypothesis HList : forall l, Forall P l -> P (DList l).
Hypothesis HDict : forall l, Forall (fun kv => P (fst kv) /\ P (snd kv)) l -> P (DDict l).
Hypothesis HSet : forall l, Forall P l -> P (DSet l).
Fixpoint data_ind' (d : data) : P d :=
  let fix go (l : list data) : Forall P l :=
    match l with [] => Forall_nil P | x :: r => Forall_cons x (data_ind' x) (go r) end in
  let fix go2 (l : list (data * data)) : Forall (fun kv => P (fst kv) /\ P (snd kv)) l :=
    match l with
    | [] => Forall_nil _
    | x :: r => Forall_cons x (conj (data_ind' (fst x)) (data_ind' (snd x))) (go2 r)
    end in
  match d with
  | DStr s => HStr s
  | DInt z => HInt z
  | DTuple l => HTuple l (go l)
  | DList l => HList l (go l)
  | DDict l => HDict l (go2 l)
  | DSet l => HSet l (go l)
  end.
End Ind.


Fixpoint data_eqb (x y : data) : bool :=
  let fix all (l l' : list data) : bool :=
    match l, l' with
    | [], [] => true
    | a :: r, b :: r' => data_eqb a b && all r r'
    | _, _ => false
    end in
  let fix all2 (l l' : list (data * data)) : bool :=
    match l, l' with
    | [], [] => true
    | (a, b) :: r, (a', b') :: r' => data_eqb a a' && data_eqb b b' && all2 r r'
    | _, _ => false
    end in
  match x, y with
  | DStr s, DStr s' => s == s'
  | DInt z, DInt z' => z == z'
  | DTuple l, DTuple l' | DList l, DList l' | DSet l, DSet l' => all l l'
  | DDict l, DDict l' => all2 l l'
  | _, _ => false
  end.
Lemma data_eqb_eq x y : data_eqb x y = true <-> x = y.
Proof.
  assert (L : forall l l' : list data, Forall (fun x => forall y, data_eqb x y = true <-> x = y) l ->
    (fix all (l l' : list data) : bool :=
    match l, l' with
    | [], [] => true
    | a :: r, b :: r' => data_eqb a b && all r r'
    | _, _ => false
    end) l l' = true <-> l = l').
  { intros l l' F. revert l'. induction F as [|a l Ha F IH]; intros [|b l']; try easy.
    rewrite andb_true_iff, Ha, IH. split; [intros [-> ->]; easy | intros E; now inv E]. }
  revert y. induction x as [s|z|l IH|l IH|l IH|l IH] using data_ind'; intros y; destruct y as [s'|z'|l'|l'|l'|l'];
    cbn [data_eqb]; try (split; [discriminate | intros E; discriminate E]).
  - rewrite eqb_eq. split; congruence.
  - rewrite eqb_eq. split; congruence.
  - rewrite L by assumption. split; congruence.
  - rewrite L by assumption. split; congruence.
  - match goal with |- ?f l l' = true <-> _ => assert (G : f l l' = true <-> l = l') end.
    { revert l'. induction IH as [|[a b] l [Ha Hb] F IH]; intros [|[a' b'] l']; try easy.
      cbn [fst snd] in *. rewrite !andb_true_iff, Ha, Hb, IH.
      split; [intros [[-> ->] ->]; easy | intros E; now inv E]. }
    rewrite G. split; congruence.
  - rewrite L by assumption. split; congruence.
Qed.
#[export] Instance Eqb_data : Eqb data := { eqb := data_eqb; eqb_eq := data_eqb_eq }.

(** Hashable: usable as a key or member *)
Fixpoint hashable (d : data) : bool :=
  match d with
  | DStr _ | DInt _ => true
  | DTuple l => forallb hashable l
  | DList _ | DDict _ | DSet _ => false
  end.

(** Objects that can exist: keys and members hashable and distinct *)
Fixpoint proper (d : data) : Prop :=
  match d with
  | DStr s => valid_str s
  | DInt _ => True
  | DTuple l | DList l => fold_right (fun x P => proper x /\ P) True l
  | DSet l =>
      fold_right (fun x P => proper x /\ P) True l /\ forallb hashable l = true /\ NoDup l
  | DDict l =>
      fold_right (fun kv P => (proper (fst kv) /\ proper (snd kv)) /\ P) True l
      /\ forallb hashable (map fst l) = true /\ NoDup (map fst l)
  end.

(** Python's [==]: order of dictionary entries and set members is irrelevant *)
Inductive data_equal : data -> data -> Prop :=
| eq_str s : data_equal (DStr s) (DStr s)
| eq_int z : data_equal (DInt z) (DInt z)
| eq_tuple l l' : Forall2 data_equal l l' -> data_equal (DTuple l) (DTuple l')
| eq_list l l' : Forall2 data_equal l l' -> data_equal (DList l) (DList l')
| eq_dict l l0 l' : Permutation l l0 ->
    Forall2 (fun x y => data_equal (fst x) (fst y) /\ data_equal (snd x) (snd y)) l0 l' ->
    data_equal (DDict l) (DDict l')
| eq_set l l0 l' : Permutation l l0 -> Forall2 data_equal l0 l' -> data_equal (DSet l) (DSet l').

(** The value of a literal expression; [None]: Python raises, or not a literal.
    A repeated key overwrites, a repeated member is dropped. *)
Fixpoint evaluate (e : expr) : option data :=
  let fix all (es : list expr) : option (list data) :=
    match es with
    | [] => Some []
    | e :: r => match evaluate e, all r with Some d, Some ds => Some (d :: ds) | _, _ => None end
    end in
  let fix all2 (es : list (expr * expr)) : option (list (data * data)) :=
    match es with
    | [] => Some []
    | (k, v) :: r =>
        match evaluate k, evaluate v, all2 r with
        | Some k, Some v, Some ds => if hashable k then Some ((k, v) :: ds) else None
        | _, _, _ => None
        end
    end in
  match e with
  | EString s => Some (DStr s)
  | EInt z => Some (DInt z)
  | ETuple es => option_map DTuple (all es)
  | EList es => option_map DList (all es)
  | EDict es => option_map (fun items => DDict (dict_of items)) (all2 es)
  | ESet es =>
      match all es with
      | Some ds =>
          if forallb hashable ds
          then Some (DSet (fold_left (fun acc d => if mem d acc then acc else acc ++ [d]) ds []))
          else None
      | None => None
      end
  | ECall (EName n) [] => if n == $"set" then Some (DSet []) else None
  | _ => None
  end.

(** Text written somewhere reads as a value. *)
Definition text_value (text : pystr) (d : data) : Prop :=
  exists e, reads text e /\ evaluate e = Some d.
