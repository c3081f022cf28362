(** Proofs about Pretty.v. *)
From Verif Require Import Base PySort PyText PyExpr PyExprProofs SpecData Pretty.
Set Implicit Arguments.

Section Printable.
Variable printable : N -> bool.

Lemma blank_app w w' : blank w -> blank w' -> blank (w ++ w').
Proof. unfold blank. rewrite forallb_app. intros -> ->. easy. Qed.
Lemma blank_repeat n : blank (repeat 32%N n).
Proof. unfold blank. induction n; cbn; auto. Qed.
Lemma blank_spaces i d : blank (spaces i d).
Proof. apply blank_repeat. Qed.
Lemma blank_newline : blank [NEWLINE]. Proof. reflexivity. Qed.
Lemma blank_nil : blank []. Proof. reflexivity. Qed.
#[local] Hint Resolve blank_app blank_spaces blank_newline blank_nil blank_repeat : core.

Definition entry_shows (it : item) (entry : pystr) : Prop :=
  exists w t, entry = w ++ t /\ blank w /\ shows_item printable it t.

(** Entries joined by commas and blanks *)
Lemma shows_join sep its entries : blank sep -> Forall2 entry_shows its entries ->
  forall w0 w1, blank w0 -> blank w1 -> its <> [] ->
  shows_items printable its (1 <? length its) (w0 ++ join (44%N :: sep) entries ++ w1).
Proof.
  intros Hsep F. induction F as [|it entry its entries [w [t [-> [Hw Ht]]]] F IH]; intros w0 w1 H0 H1 N; [easy|].
  destruct F as [|it' entry' its entries He F].
  - cbn [join length]. change (1 <? 1) with false.
    replace (w0 ++ (w ++ t) ++ w1) with ((w0 ++ w) ++ t ++ w1) by now rewrite !app_assoc.
    now apply si_one; auto.
  - change (1 <? length (it :: it' :: its)) with true.
    change (join (44%N :: sep) ((w ++ t) :: entry' :: entries))
      with ((w ++ t) ++ (44%N :: sep) ++ join (44%N :: sep) (entry' :: entries)).
    replace (w0 ++ ((w ++ t) ++ (44%N :: sep) ++ join (44%N :: sep) (entry' :: entries)) ++ w1)
      with ((w0 ++ w) ++ t ++ [] ++ 44%N :: (sep ++ join (44%N :: sep) (entry' :: entries) ++ w1))
      by (cbn [app]; rewrite <- ?app_assoc; cbn [app]; now rewrite <- ?app_assoc).
    eapply si_comma; auto. apply IH; auto. easy.
Qed.

Lemma block_body opening closing indent depth its entries :
  Forall2 entry_shows its entries -> its <> [] ->
  exists body, block opening closing indent depth entries = opening :: body ++ [closing]
    /\ shows_items printable its (1 <? length its) body.
Proof.
  intros F N. exists ([NEWLINE] ++ join [44%N; NEWLINE] entries ++ [NEWLINE] ++ spaces indent depth). split.
  - unfold block. cbn [app]. rewrite <- !app_assoc. cbn [app]. now rewrite <- ?app_assoc.
  - apply (shows_join blank_newline F); auto.
Qed.

(** ** Lists of entries *)
Definition item_of (e : expr) : item := mk_item None e None.
Definition pair_of (kv : expr * expr) : item := mk_item None (fst kv) (Some (snd kv)).
Lemma plain_items_of es : plain_items (map item_of es) = Some es.
Proof. induction es as [|e es IH]; cbn; [easy|]. now rewrite IH. Qed.
Lemma pair_items_of es : pair_items (map pair_of es) = Some es.
Proof. induction es as [|[k v] es IH]; cbn; [easy|]. now rewrite IH. Qed.

Lemma braced_pairs es : es <> [] -> braced (map pair_of es) = Some (EDict es).
Proof.
  destruct es as [|kv es]; [easy|]. intros _.
  transitivity (option_map EDict (pair_items (map pair_of (kv :: es)))); [reflexivity | now rewrite pair_items_of].
Qed.
Lemma braced_plain es : es <> [] -> braced (map item_of es) = Some (ESet es).
Proof.
  destruct es as [|e es]; [easy|]. intros _.
  transitivity (option_map ESet (plain_items (map item_of (e :: es)))); [reflexivity | now rewrite plain_items_of].
Qed.

Definition evaluate_all (es : list expr) : option (list data) :=
  (fix all (es : list expr) : option (list data) :=
    match es with
    | [] => Some []
    | e :: r => match evaluate e, all r with Some d, Some ds => Some (d :: ds) | _, _ => None end
    end) es.
Definition evaluate_pairs (es : list (expr * expr)) : option (list (data * data)) :=
  (fix all2 (es : list (expr * expr)) : option (list (data * data)) :=
    match es with
    | [] => Some []
    | (k, v) :: r =>
        match evaluate k, evaluate v, all2 r with
        | Some k, Some v, Some ds => if hashable k then Some ((k, v) :: ds) else None
        | _, _, _ => None
        end
    end) es.
Lemma evaluate_all_ok es ds : Forall2 (fun e d => evaluate e = Some d) es ds -> evaluate_all es = Some ds.
Proof.
  induction 1 as [|e d es ds H F IH]; [easy|]. unfold evaluate_all in *. now rewrite H, IH.
Qed.
Lemma evaluate_pairs_ok es ds :
  Forall2 (fun e d => evaluate (fst e) = Some (fst d) /\ evaluate (snd e) = Some (snd d) /\ hashable (fst d) = true) es ds ->
  evaluate_pairs es = Some ds.
Proof.
  induction 1 as [|[k v] [k' v'] es ds [H1 [H2 H3]] F IH]; [easy|]. cbn [fst snd] in *.
  unfold evaluate_pairs in *. now rewrite H1, H2, IH, H3.
Qed.

Lemma add_all_nodup (ds acc : list data) : NoDup (acc ++ ds) ->
  fold_left (fun acc d => if mem d acc then acc else acc ++ [d]) ds acc = acc ++ ds.
Proof.
  revert acc. induction ds as [|d ds IH]; intros acc H; cbn; [now rewrite app_nil_r|].
  assert (N : mem d acc = false).
  { destruct (mem d acc) eqn:E; [|easy]. apply mem_In in E. exfalso.
    apply NoDup_remove_2 in H. apply H. apply in_or_app. now left. }
  rewrite N, IH; rewrite <- app_assoc; easy.
Qed.

(** Choice along a list *)
Lemma Forall_choose {A B} (P : A -> B -> Prop) l : Forall (fun x => exists y, P x y) l -> exists l', Forall2 P l l'.
Proof.
  induction 1 as [|x l [y Hy] F [l' IH]]; [exists []; constructor|]. exists (y :: l'). now constructor.
Qed.
Lemma Forall2_both {A B} (P Q : A -> B -> Prop) l l' : Forall2 (fun x y => P x y /\ Q x y) l l' -> Forall2 P l l' /\ Forall2 Q l l'.
Proof. induction 1 as [|x y l l' [H1 H2] F [IH1 IH2]]; split; constructor; auto. Qed.
Lemma Forall2_map {A B C D} (P : C -> D -> Prop) (f : A -> C) (g : B -> D) l l' :
  Forall2 (fun x y => P (f x) (g y)) l l' -> Forall2 P (map f l) (map g l').
Proof. induction 1; constructor; auto. Qed.
Lemma Forall2_impl {A B} (P Q : A -> B -> Prop) l l' : (forall x y, P x y -> Q x y) -> Forall2 P l l' -> Forall2 Q l l'.
Proof. intros H. induction 1; constructor; auto. Qed.
Lemma Forall2_in_l {A B} (P : A -> B -> Prop) (Q : A -> Prop) l l' :
  Forall Q l -> Forall2 P l l' -> Forall2 (fun x y => Q x /\ P x y) l l'.
Proof. intros F H. revert F. induction H; intros F; inv F; constructor; auto. Qed.

(** A hashable value is equal to itself only. *)
Lemma hashable_equal d d' : data_equal d d' -> hashable d = true -> d' = d.
Proof.
  revert d'. induction d as [s|z|l IH|l IH|l IH|l IH] using data_ind'; intros d' E Hh; inv E; try easy.
  f_equal. cbn in Hh. match goal with G : Forall2 _ _ _ |- _ => rename G into F end. revert IH Hh. induction F as [|x y l l' H F IHF]; intros IH Hh; [easy|].
  cbn in Hh. apply andb_true_iff in Hh as [H1 H2]. inv IH. f_equal; auto.
Qed.

Lemma proper_forall l : fold_right (fun x P => proper x /\ P) True l -> Forall proper l.
Proof. induction l as [|x l IH]; cbn; intros H; constructor; [apply H | apply IH, H]. Qed.
Lemma proper_forall2 l : fold_right (fun kv P => (proper (fst kv) /\ proper (snd kv)) /\ P) True l ->
  Forall (fun kv => proper (fst kv) /\ proper (snd kv)) l.
Proof. induction l as [|x l IH]; cbn; intros H; constructor; [apply H | apply IH, H]. Qed.

(** The text of one entry of a dictionary *)
Definition entry_text (indent depth : nat) (kv : data * data) : pystr :=
  spaces indent (depth + 1) ++ repr_from printable (fst kv) indent (depth + 1)
  ++ $": " ++ repr_from printable (snd kv) indent (depth + 1).

(** Every dictionary lists its entries in the order of their texts. *)
Fixpoint ordered (d : data) (indent depth : nat) : Prop :=
  match d with
  | DStr _ | DInt _ => True
  | DTuple [x] => ordered x indent depth
  | DTuple l | DList l | DSet l => fold_right (fun x P => ordered x indent (depth + 1) /\ P) True l
  | DDict l =>
      StronglySorted (fun a b => str_leb a b = true) (map (entry_text indent depth) l)
      /\ fold_right (fun kv P => (ordered (fst kv) indent (depth + 1) /\ ordered (snd kv) indent (depth + 1)) /\ P) True l
  end.
Lemma ordered_forall (P : data -> Prop) l : fold_right (fun x Q => P x /\ Q) True l -> Forall P l.
Proof. induction l as [|x l IH]; cbn; intros H; constructor; [apply H | apply IH, H]. Qed.
Lemma ordered_forall2 (P : data * data -> Prop) l : fold_right (fun x Q => P x /\ Q) True l -> Forall P l.
Proof. induction l as [|x l IH]; cbn; intros H; constructor; [apply H | apply IH, H]. Qed.

Definition reads_back (d : data) : Prop := forall indent depth, exists x : expr * data,
  shows printable (fst x) (repr_from printable d indent depth) /\ evaluate (fst x) = Some (snd x)
  /\ data_equal d (snd x) /\ (ordered d indent depth -> snd x = d).

Lemma sorted_choice {A} (f : A -> pystr) l : exists l', sorted str_leb (map f l) = map f l' /\ Permutation l l'
  /\ (StronglySorted (fun a b => str_leb a b = true) (map f l) -> l' = l).
Proof.
  destruct (eqb_reflect (sorted str_leb (map f l)) (map f l)) as [E|N].
  - exists l. auto.
  - pose proof (sorted_perm str_leb (map f l)) as P.
    apply Permutation_sym, Permutation_map_inv in P as [l' [El P]]. exists l'. repeat split; auto.
    intros S. exfalso. apply N. apply (@sorted_unique _ str_leb str_antisym).
    + apply sorted_sorted; [apply str_total | apply str_trans].
    + exact S.
    + apply Permutation_sym, sorted_perm.
Qed.

Lemma entries_of l indent depth : Forall reads_back l ->
  exists es ds, Forall2 entry_shows (map item_of es)
                  (map (fun x => spaces indent (depth + 1) ++ repr_from printable x indent (depth + 1)) l)
    /\ evaluate_all es = Some ds /\ Forall2 data_equal l ds
    /\ (fold_right (fun x P => ordered x indent (depth + 1) /\ P) True l -> ds = l).
Proof.
  intros F.
  assert (C : exists xs : list (expr * data), Forall2 (fun d x => shows printable (fst x) (repr_from printable d indent (depth + 1))
      /\ evaluate (fst x) = Some (snd x) /\ data_equal d (snd x) /\ (ordered d indent (depth + 1) -> snd x = d)) l xs).
  { apply Forall_choose. eapply Forall_impl; [|exact F]. intros d H. apply H. }
  destruct C as [xs C]. exists (map fst xs), (map snd xs). split; [|split; [|split]].
  - rewrite map_map. clear F. induction C as [|d x l xs [H _] C IH]; cbn; constructor; [|easy].
    exists (spaces indent (depth + 1)), (repr_from printable d indent (depth + 1)). repeat split; auto. now constructor.
  - apply evaluate_all_ok. clear F. induction C as [|d x l xs [_ [H _]] C IH]; cbn; constructor; auto.
  - clear F. induction C as [|d x l xs [_ [_ [H _]]] C IH]; cbn; constructor; auto.
  - clear F. induction C as [|d x l xs [_ [_ [_ H]]] C IH]; cbn; [easy|]. intros [H1 H2]. f_equal; auto.
Qed.

Lemma entries_nonempty {A B C} (P : B -> C -> Prop) (f : A -> B) l l' : Forall2 P (map f l) l' -> l' <> [] -> map f l <> [].
Proof. intros F N E. rewrite E in F. inv F. easy. Qed.

Lemma Forall2_data_hashable l ds : Forall2 data_equal l ds -> forallb hashable l = true -> ds = l.
Proof.
  induction 1 as [|x y l l' H F IH]; cbn; intros Hh; [easy|]. apply andb_true_iff in Hh as [H1 H2].
  f_equal; [now apply hashable_equal | auto].
Qed.

Theorem repr_from_reads_back d : proper d -> reads_back d.
Proof.
  induction d as [s|z|l IH|l IH|l IH|l IH] using data_ind'; intros Hp indent depth.
  - exists (EString s, DStr s). cbn. repeat split; constructor; exact Hp.
  - exists (EInt z, DInt z). cbn. repeat split; constructor.
  - assert (R : Forall reads_back l).
    { apply proper_forall in Hp. rewrite Forall_forall in *. auto. }
    destruct l as [|x [|y l]].
    + exists (ETuple [], DTuple []). cbn. repeat split; [|constructor; constructor].
      apply (@sh_parentheses printable [] false [] (ETuple [])); [now constructor | easy].
    + inv R. destruct (H1 indent depth) as [[e d] [Hs [He [Hd Ho]]]]. cbn [fst snd] in *.
      exists (ETuple [e], DTuple [d]). cbn [fst snd repr_from evaluate]. rewrite He. repeat split.
      * replace ([40%N] ++ repr_from printable x indent depth ++ $",)")
          with (40%N :: ([] ++ repr_from printable x indent depth ++ [] ++ 44%N :: []) ++ [41%N])
          by (cbn [app]; now rewrite <- app_assoc).
        eapply sh_parentheses with (b := true) (its := [item_of e]); [|easy].
        eapply si_comma; auto; [now constructor | now constructor].
      * constructor. constructor; [easy|constructor].
      * cbn. intros O. now rewrite Ho.
    + destruct (@entries_of (x :: y :: l) indent depth R) as [es [ds [F [He [Hd Ho]]]]].
      assert (N : map item_of es <> []) by (eapply entries_nonempty; [exact F | easy]).
      destruct (block_body 40 41 indent depth F N) as [body [Hb Hi]].
      exists (ETuple es, DTuple ds). cbn [fst snd].
      change (repr_from printable (DTuple (x :: y :: l)) indent depth)
        with (block 40 41 indent depth
          (map (fun x => spaces indent (depth + 1) ++ repr_from printable x indent (depth + 1)) (x :: y :: l))).
      rewrite Hb. repeat split.
      * eapply sh_parentheses; [exact Hi|]. unfold parenthesised. rewrite plain_items_of.
        destruct es as [|e1 [|e2 es]]; [easy | inv F; inv H4 | easy].
      * change (evaluate (ETuple es)) with (option_map DTuple (evaluate_all es)). now rewrite He.
      * now constructor.
      * intros O. f_equal. apply Ho, O.
  - assert (R : Forall reads_back l).
    { apply proper_forall in Hp. rewrite Forall_forall in *. auto. }
    destruct l as [|x l].
    + exists (EList [], DList []). cbn. repeat split; [|constructor; constructor].
      apply (@sh_list printable [] false [] []); [now constructor | easy].
    + destruct (@entries_of (x :: l) indent depth R) as [es [ds [F [He [Hd Ho]]]]].
      assert (N : map item_of es <> []) by (eapply entries_nonempty; [exact F | easy]).
      destruct (block_body 91 93 indent depth F N) as [body [Hb Hi]].
      exists (EList es, DList ds). cbn [fst snd].
      change (repr_from printable (DList (x :: l)) indent depth)
        with (block 91 93 indent depth
          (map (fun x => spaces indent (depth + 1) ++ repr_from printable x indent (depth + 1)) (x :: l))).
      rewrite Hb. repeat split.
      * eapply sh_list; [exact Hi|]. apply plain_items_of.
      * change (evaluate (EList es)) with (option_map DList (evaluate_all es)). now rewrite He.
      * now constructor.
      * intros O. f_equal. apply Ho, O.
  - destruct l as [|kv0 l0].
    + exists (EDict [], DDict []). cbn. repeat split; [|econstructor; constructor].
      apply (@sh_braces printable [] false [] (EDict [])); [now constructor | easy].
    + set (l := kv0 :: l0) in *. assert (Nl : l <> []) by easy. clearbody l. 
      destruct Hp as [Hp [Hh Hn]]. apply proper_forall2 in Hp.
      set (entry := entry_text indent depth).
      assert (Hr : repr_from printable (DDict l) indent depth
                   = block 123 125 indent depth (sorted str_leb (map entry l))).
      { destruct l; easy. }
      destruct (sorted_choice entry l) as [l' [El [P Hsame]]].
      assert (R : Forall (fun kv => reads_back (fst kv) /\ reads_back (snd kv) /\ hashable (fst kv) = true) l').
      { apply Forall_forall. intros kv Hkv. apply (Permutation_in kv (Permutation_sym P)) in Hkv.
        rewrite Forall_forall in *. specialize (IH kv Hkv). specialize (Hp kv Hkv).
        repeat split; try tauto. rewrite forallb_forall in Hh. apply Hh, in_map, Hkv. }
      assert (C : exists xs : list ((expr * expr) * (data * data)),
         Forall2 (fun kv x => entry_shows (pair_of (fst x)) (entry kv)
            /\ (evaluate (fst (fst x)) = Some (fst (snd x)) /\ evaluate (snd (fst x)) = Some (snd (snd x))
                /\ hashable (fst (snd x)) = true)
            /\ fst (snd x) = fst kv
            /\ (data_equal (fst kv) (fst (snd x)) /\ data_equal (snd kv) (snd (snd x)))
            /\ (ordered (snd kv) indent (depth + 1) -> snd (snd x) = snd kv)) l' xs).
      { apply Forall_choose. eapply Forall_impl; [|exact R]. intros [k v] [Hk [Hv Hhk]]. cbn [fst snd] in *.
        destruct (Hk indent (depth + 1)) as [[ek dk] [K1 [K2 [K3 _]]]].
        destruct (Hv indent (depth + 1)) as [[ev dv] [V1 [V2 [V3 V4]]]]. cbn [fst snd] in *.
        exists ((ek, ev), (dk, dv)). cbn [fst snd]. pose proof (hashable_equal K3 Hhk) as ->. repeat split; auto.
        unfold entry, entry_text. cbn [fst snd].
        exists (spaces indent (depth + 1)), (repr_from printable k indent (depth + 1)
                           ++ $": " ++ repr_from printable v indent (depth + 1)). repeat split; auto.
        change ($": " ++ repr_from printable v indent (depth + 1))
          with ([] ++ 58%N :: [32%N] ++ repr_from printable v indent (depth + 1)).
        constructor; auto. }
      destruct C as [xs C].
      exists (EDict (map fst xs), DDict (map snd xs)). cbn [fst snd].
      assert (F : Forall2 entry_shows (map pair_of (map fst xs)) (sorted str_leb (map entry l))).
      { rewrite El, map_map. clear - C. induction C as [|kv x l' xs [H _] C IH]; cbn; constructor; auto. }
      assert (N : map pair_of (map fst xs) <> []).
      { intros E. rewrite E in F. inversion F as [E1 E2|].
        pose proof (sorted_perm str_leb (map entry l)) as Q. rewrite <- E2 in Q.
        apply Permutation_sym, Permutation_nil in Q. now destruct l. }
      rewrite Hr. destruct (block_body 123 125 indent depth F N) as [body [Hb Hi]]. rewrite Hb. repeat split.
      * eapply sh_braces; [exact Hi|]. apply braced_pairs. now destruct (map fst xs).
      * change (evaluate (EDict (map fst xs))) with (option_map (fun items => DDict (dict_of items)) (evaluate_pairs (map fst xs))).
        rewrite (@evaluate_pairs_ok (map fst xs) (map snd xs)).
        -- cbn [option_map]. do 2 f_equal. apply dict_of_NoDup.
           assert (E : map fst (map snd xs) = map fst l').
           { clear - C. induction C as [|kv x l' xs [_ [_ [H _]]] C IH]; cbn; congruence. }
           rewrite E. eapply Permutation_NoDup; [|exact Hn]. now apply Permutation_map.
        -- clear - C. induction C as [|kv x l' xs [_ [H _]] C IH]; cbn; constructor; auto.
      * econstructor; [exact P|]. clear - C. induction C as [|kv x l' xs [_ [_ [_ [H _]]]] C IH]; cbn; constructor; auto.
      * intros [O1 O2]. apply Hsame in O1. subst l'. f_equal. clear - C O2.
        induction C as [|[k v] [es [k' v']] l' xs [_ [_ [H1 [_ H2]]]] C IH]; cbn in *; [easy|].
        destruct O2 as [[_ O] O2]. f_equal; [|auto]. f_equal; auto.
  - destruct l as [|x0 l0].
    + exists (ECall (EName ($"set")) [], DSet []). cbn [fst snd]. repeat split; [|econstructor; constructor].
      apply (@sh_call printable (EName ($"set")) ($"set") [] false [] []); [now constructor | now constructor | easy].
    + destruct Hp as [Hp [Hh Hn]]. apply proper_forall in Hp.
      assert (R : Forall reads_back (x0 :: l0)).
      { rewrite Forall_forall in *. auto. }
      destruct (@entries_of (x0 :: l0) indent depth R) as [es [ds [F [He [Hd Ho]]]]].
      assert (N : map item_of es <> []) by (eapply entries_nonempty; [exact F | easy]).
      destruct (block_body 123 125 indent depth F N) as [body [Hb Hi]].
      exists (ESet es, DSet ds). cbn [fst snd].
      change (repr_from printable (DSet (x0 :: l0)) indent depth)
        with (block 123 125 indent depth
          (map (fun x => spaces indent (depth + 1) ++ repr_from printable x indent (depth + 1)) (x0 :: l0))).
      rewrite Hb. pose proof (Forall2_data_hashable Hd Hh) as E. repeat split.
      * eapply sh_braces; [exact Hi|]. apply braced_plain. now destruct es.
      * change (evaluate (ESet es)) with (match evaluate_all es with
          | Some ds =>
              if forallb hashable ds
              then Some (DSet (fold_left (fun acc d => if mem d acc then acc else acc ++ [d]) ds []))
              else None
          | None => None
          end). rewrite He, E, Hh, add_all_nodup; [now rewrite <- E | exact Hn].
      * econstructor; [apply Permutation_refl | exact Hd].
      * intros O. now f_equal.
Qed.

Theorem repr_from_text_value d indent depth : proper d ->
  exists d', text_value (repr_from printable d indent depth) d' /\ data_equal d d'.
Proof.
  intros H. destruct (repr_from_reads_back d H indent depth) as [[e d'] [Hs [He [Hd _]]]]. cbn [fst snd] in *.
  exists d'. split; [|exact Hd]. exists e. split; [eapply shows_reads, Hs | exact He].
Qed.
Theorem repr_from_text_value_ordered d indent depth : proper d -> ordered d indent depth ->
  text_value (repr_from printable d indent depth) d.
Proof.
  intros H O. destruct (repr_from_reads_back d H indent depth) as [[e d'] [Hs [He [_ Hd]]]]. cbn [fst snd] in *.
  rewrite Hd in He by exact O. exists e. split; [eapply shows_reads, Hs | exact He].
Qed.
(** The text has one value only. *)
Lemma text_value_unique t d d' : text_value t d -> text_value t d' -> d = d'.
Proof.
  intros [e [R E]] [e' [R' E']]. rewrite (reads_unique R R') in E. congruence.
Qed.
End Printable.
