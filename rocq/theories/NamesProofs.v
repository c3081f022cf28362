(** C81: what names in stubs stand for *)
From Coq Require Import Relations Wellfounded.
From Verif Require Import Base Ast Scoping SpecScoping ScopingProofs Stubs SpecStubs StubsProofs SpecNames.
Set Implicit Arguments.

Section Names.
Variable source : path -> option (list stmt).
Variable is_package : path -> bool.
Variable condition : list (pystr * qualified_path) -> expr -> res bool.
Variable fuel : nat.
Notation parse := (parse_stub_scope source is_package condition fuel).
Notation gives_up := (gives_up parse).
Definition kept (st st' : state) : Prop :=
  forall x fs, In x (visited st) -> tables_say x st fs -> In x (visited st') /\ tables_say x st' fs.
Definition after (st st' : state) : Prop := well_told st' /\ kept st st'.
Lemma kept_trans st1 st2 st3 : kept st1 st2 -> kept st2 st3 -> kept st1 st3.
Proof. intros A B x fs H T. destruct (A x fs H T). now apply B. Qed.
Lemma kept_refl st : kept st st.
Proof. now intros x fs. Qed.
Lemma kept_visited st st' : well_told st -> kept st st' -> incl (visited st) (visited st').
Proof. intros [W _] K x Hx. destruct (W x) as [fs T]. now apply (K x fs). Qed.
Lemma parse_after m st : well_told st ->
  match parse m st with Done st' _ | Missing st' => after st st' | Fails _ => True end.
Proof.
  intros W. assert (K := fun x fs => @parse_stable source is_package condition fuel m st x fs W).
  pose proof (@goes_steps (told source is_package condition) _ _ _ (@parse_goes source is_package condition fuel m st (proj2 W))) as G.
  destruct (parse m st) as [st' s|st'|e]; [| |exact I]; destruct G as (es & G); (split; [eapply well_told_steps; eassumption|exact K]).
Qed.
Lemma parse_scope m st st' s : parse m st = Done st' s -> dget m (definitions (db st')) = Some s.
Proof.
  intros H.
  assert (P : forall st x, pure st (fetch m x) = Done st' s -> st = st' /\ dget m x = Some s).
  { intros st0 x. unfold fetch. destruct (dget m x); cbn; [|discriminate]. intros [= -> ->]. auto. }
  destruct fuel as [|f]; cbn [parse_stub_scope] in H; destruct (mem m (visited st)).
  1, 3: apply P in H; destruct H as [<- H]; exact H.
  - discriminate H.
  - destruct (source m) as [body|]; [|discriminate H]. cbv zeta in H.
    destruct (each _ body _) as [st1 u|st1|e]; [|discriminate H|discriminate H]. cbn [sbind] in H. apply P in H. destruct H as [<- H]. exact H.
Qed.

(** What is found stays found. *)
Lemma tables_defined st st' x : well_told st -> kept st st' -> In x (visited st) ->
  (forall o, o <> [] -> (defined (db st) x o <-> defined (db st') x o))
  /\ star_imports (db st') x = star_imports (db st) x
  /\ (forall p, reference (db st') x p = reference (db st) x p).
Proof.
  intros [W _] K Hx. destruct (W x) as [fs T]. destruct (K x fs Hx T) as [_ T'].
  destruct T as (_ & _ & _ & _ & R & S & _ & D), T' as (_ & _ & _ & _ & R' & S' & _ & D').
  assert (HR : forall (st : state) p, reference (db st) x p = dget p (dget_or x [] (references (db st)))).
  { intros s p. unfold reference, dget_or. exact (match dget x (references (db s)) as o return (match o with Some t => dget p t | None => None end = dget p (match o with Some a => a | None => [] end)) with Some _ => eq_refl | None => eq_refl end). }
  split; [intros o Ho; rewrite D, D'; tauto|]. split; [|intros p; rewrite !HR, R, R'; reflexivity].
  unfold dget_or in S, S'. unfold star_imports. destruct (dget x (submodules (db st))), (dget x (submodules (db st'))); congruence.
Qed.
Lemma found_later (given given' : path -> Prop) st st' : well_told st -> kept st st' -> In builtins_path (visited st) ->
  (forall m, given m -> given' m) ->
  forall m parent o r, found given st m parent o r -> found given' st' m parent o r.
Proof.
  intros W K Hb G m parent o r H.
  assert (V : incl (visited st) (visited st')) by now apply kept_visited.
  assert (U : forall m parent n, In m (visited st) -> undefined_in st m parent n -> undefined_in st' m parent n).
  { intros x pa n Hx [A B]. destruct (tables_defined _ W K Hx) as (D & _). split; rewrite <- D; auto; now destruct pa. }
  assert (DB : forall o, o <> [] -> (defined (db st) builtins_path o <-> defined (db st') builtins_path o)).
  { now destruct (tables_defined _ W K Hb) as (D & _). }
  assert (I : forall m o q rest, In m (visited st) -> imported_as st m o q rest -> imported_as st' m o q rest).
  { intros x o' q rest Hx (p & A & B & C & D). destruct (tables_defined _ W K Hx) as (_ & _ & R). exists p. rewrite R. repeat split; auto.
    intros p' rest' E L. rewrite R. eauto. }
  assert (N : forall m o, In m (visited st) -> not_imported st m o -> not_imported st' m o).
  { intros x o' Hx A p rest E F. destruct (tables_defined _ W K Hx) as (_ & _ & R). rewrite R. eauto. }
  induction H as [m parent n r Hm D|m parent n r Hm D1 D2|m parent n r before s aft q Hm HU HS _ IHB _ IH|m parent n r q rest Hm HU _ IHS HI
                 |m parent n r Hm HU _ IHS HN HD|m parent n r Hm HU _ IHS HN HD|m parent o HG].
  - apply fo_enclosing; [now apply V|]. destruct (tables_defined _ W K Hm) as (A & _). apply A; [now destruct parent|exact D].
  - destruct (tables_defined _ W K Hm) as (A & _). apply fo_module; [now apply V| |]; rewrite <- A; auto; try discriminate; now destruct parent.
  - destruct (tables_defined _ W K Hm) as (_ & A & _). eapply fo_star; [now apply V|now apply U|rewrite A; exact HS|exact IHB|exact IH].
  - destruct (tables_defined _ W K Hm) as (_ & A & _). apply fo_import; [now apply V|now apply U|now rewrite A|now apply I].
  - destruct (tables_defined _ W K Hm) as (_ & A & _). apply fo_builtin; [now apply V|now apply U|now rewrite A|now apply N|now apply DB].
  - destruct (tables_defined _ W K Hm) as (_ & A & _). apply fo_nothing; [now apply V|now apply U|now rewrite A|now apply N|rewrite <- DB; [exact HD|discriminate]].
  - apply fo_given_up. auto.
Qed.
Lemma gives_up_later st st' m : well_told st -> kept st st' -> gives_up st' m -> gives_up st m.
Proof.
  intros W K (s & s' & A & B & C). exists s, s'. split; [|auto]. eapply incl_tran; [|exact A]. now apply kept_visited.
Qed.

Lemma longest_imported st m refs n (r : path) : dget m (references (db st)) = Some refs ->
  match longest_reference refs (n :: r) (length (n :: r)) with
  | Some (q, rest) => imported_as st m (n :: r) q rest
  | None => not_imported st m (n :: r)
  end.
Proof.
  intros E. set (o := n :: r).
  assert (HR : forall p, reference (db st) m p = dget p refs) by (intros p; unfold reference; now rewrite E).
  assert (HF : forall p rest, o = p ++ rest -> p = firstn (length p) o).
  { intros p rest ->. now rewrite firstn_app, Nat.sub_diag, firstn_all, firstn_O, app_nil_r. }
  destruct (longest_reference refs o (length o)) as [[q rest]|] eqn:L.
  - apply longest_reference_Some in L. destruct L as (k & Hk & H1 & H2 & H3).
    exists (firstn k o). split; [|split; [|split]].
    + destruct k; [lia|]. discriminate.
    + rewrite H2. now rewrite firstn_skipn.
    + now rewrite HR.
    + intros p' rest' Hp Hl. rewrite HR, (HF p' rest' Hp). apply H3. rewrite firstn_length in Hl.
      assert (length p' <= length o) by (rewrite Hp, app_length; lia). lia.
  - intros p rest Hp Ho. rewrite HR, (HF p rest Ho). rewrite longest_reference_None in L. apply L.
    assert (length p <= length o) by (rewrite Ho, app_length; lia). destruct p; [congruence|cbn in *; lia].
Qed.

Lemma fetched {K V} `{Eqb K} (k : K) (d : dict K V) v : fetch k d = Ok v -> dget k d = Some v.
Proof. unfold fetch. destruct (dget k d); [now intros [= ->]|discriminate]. Qed.
Definition answers (st : state) (m parent o : path) (x : step qualified_path) : Prop :=
  match x with
  | Done st' q => after st st' /\ found (gives_up st) st' m parent o (Some q)
  | Missing st' => after st st' /\ found (gives_up st) st' m parent o None
  | Fails _ => True
  end.
Lemma tries_submodules f o :
  (forall m st, well_told st -> In builtins_path (visited st) -> answers st m [] o (f m st)) ->
  forall subs st, well_told st -> In builtins_path (visited st) ->
  match try_submodules f subs st with
  | Done st' (Some q) => after st st' /\ exists before s later, subs = before ++ s :: later
      /\ (forall b, In b before -> found (gives_up st) st' b [] o None) /\ found (gives_up st) st' s [] o (Some q)
  | Done st' None => after st st' /\ forall s, In s subs -> found (gives_up st) st' s [] o None
  | Missing _ => False
  | Fails _ => True
  end.
Proof.
  intros Hf. induction subs as [|sub subs IH]; intros st W Hb; cbn [try_submodules].
  - split; [split; [exact W|apply kept_refl]|]. now intros s [].
  - pose proof (Hf sub st W Hb) as A. destruct (f sub st) as [st1 q|st1|e]; [| |exact I]; destruct A as [[W1 K1] F1].
    + split; [now split|]. exists [], sub, subs. split; [reflexivity|]. split; [now intros b []|exact F1].
    + assert (Hb1 : In builtins_path (visited st1)) by now apply (kept_visited W K1).
      specialize (IH st1 W1 Hb1). destruct (try_submodules f subs st1) as [st2 [q|]|st2|e]; [| |contradiction|exact I]; destruct IH as [[W2 K2] F2].
      * split; [split; [exact W2|now apply kept_trans with (st2 := st1)]|]. destruct F2 as (before & s & later & E & FB & FS).
        exists (sub :: before), s, later. split; [now rewrite E|].
        assert (G : forall x, gives_up st1 x -> gives_up st x) by (intros x; now apply gives_up_later).
        split; [intros b [<-|Hi]|].
        -- apply (@found_later (gives_up st) (gives_up st) st1 st2); auto.
        -- apply (@found_later (gives_up st1) (gives_up st) st2 st2); [exact W2|apply kept_refl|now apply (kept_visited W1 K2)|exact G|now apply FB].
        -- apply (@found_later (gives_up st1) (gives_up st) st2 st2); [exact W2|apply kept_refl|now apply (kept_visited W1 K2)|exact G|exact FS].
      * split; [split; [exact W2|now apply kept_trans with (st2 := st1)]|]. intros s [<-|Hi].
        -- apply (@found_later (gives_up st) (gives_up st) st1 st2); auto.
        -- apply (@found_later (gives_up st1) (gives_up st) st2 st2); [exact W2|apply kept_refl|now apply (kept_visited W1 K2)|intros x; now apply gives_up_later|now apply F2].
Qed.
Lemma star_imports_or (d : database) m : dget_or m [] (submodules d) = star_imports d m.
Proof. unfold dget_or, star_imports. now destruct (dget m (submodules d)). Qed.
Lemma resolve_answers f : forall m parent o st, well_told st -> In builtins_path (visited st) ->
  answers st m parent o (resolve_in parse f m parent o st).
Proof.
  induction f as [|f IH]; intros m parent o st W Hb; cbn [resolve_in]; [exact I|].
  destruct o as [|n r]; [exact I|]. pose proof (parse_after m W) as A.
  destruct (parse m st) as [st1 s|st1|e] eqn:E; cbn [sbind]; [| |exact I].
  2: { split; [exact A|]. destruct (mem m (visited st)) eqn:Em.
       - exfalso. destruct fuel; cbn [parse_stub_scope] in E; rewrite Em in E; unfold fetch in E; destruct (dget m (definitions (db st))); discriminate E.
       - apply fo_given_up. exists st, st1. split; [now intros x|]. split; [now apply mem_not_In|exact E]. }
  destruct A as [W1 K1]. pose proof (parse_scope _ _ E) as D1.
  assert (V1 : In m (visited st1)) by (eapply parse_visited; [exact (proj2 W)|exact E]).
  assert (Hb1 : In builtins_path (visited st1)) by now apply (kept_visited W K1).
  assert (HC : forall p, scope_contains_path s p = true <-> defined (db st1) m p).
  { intros p. rewrite contains_has_path. unfold defined. rewrite D1. split; [intros H; now exists s|]. intros (s' & [= <-] & H). exact H. }
  destruct (scope_contains_path s (parent ++ [n])) eqn:C1.
  { apply HC in C1. split; [now split|]. now apply fo_enclosing. }
  assert (N1 : ~ defined (db st1) m (parent ++ [n])) by (intros H; apply HC in H; congruence).
  destruct (dmem n (entries s)) eqn:C2.
  { split; [now split|]. apply fo_module; [exact V1|exact N1|]. exists s. split; [exact D1|]. unfold dmem in C2.
    destruct (dget n (entries s)) as [s'|] eqn:E'; [|discriminate]. econstructor; [exact E'|constructor]. }
  assert (N2 : ~ defined (db st1) m [n]).
  { intros (s' & E' & H). assert (s' = s) as -> by congruence. unfold dmem in C2. inversion H; subst. destruct (dget n (entries s)); congruence. }
  rewrite star_imports_or.
  pose proof (@tries_submodules (fun sub => resolve_in parse f sub [] (n :: r)) (n :: r) (fun sub st' => IH sub [] (n :: r) st')
     (star_imports (db st1) m) st1 W1 Hb1) as T.
  destruct (try_submodules _ _ st1) as [st2 [q|]|st2|e]; [| |contradiction|exact I]; destruct T as [[W2 K2] T]; cbn [sbind].
  all: assert (Hb2 : In builtins_path (visited st2)) by now apply (kept_visited W1 K2).
  all: assert (V2 : In m (visited st2)) by now apply (kept_visited W1 K2).
  all: assert (G : forall x o', found (gives_up st1) st2 x [] (n :: r) o' -> found (gives_up st) st2 x [] (n :: r) o').
  1, 3: intros x o'; apply (@found_later (gives_up st1) (gives_up st) st2 st2); [exact W2|apply kept_refl|exact Hb2|intros y; now apply gives_up_later].
  all: assert (KK : after st st2) by (split; [exact W2|now apply kept_trans with (st2 := st1)]).
  all: destruct (tables_defined _ W1 K2 V1) as (D & S & R).
  all: assert (U : undefined_in st2 m parent n) by (split; rewrite <- D; auto; try discriminate; now destruct parent).
  - destruct T as (before & sub & later & ES & FB & FS). split; [exact KK|].
    eapply fo_star; [exact V2|exact U|rewrite S; exact ES|intros b Hi; now apply G, FB|now apply G].
  - assert (HS : forall x, In x (star_imports (db st2) m) -> found (gives_up st) st2 x [] (n :: r) None) by (rewrite S; intros x Hx; now apply G, T).
    destruct (fetch m (references (db st2))) as [refs|] eqn:ER; [|exact I]. cbn [pure sbind]. apply fetched in ER.
    pose proof (@longest_imported st2 m refs n r ER) as L. destruct (longest_reference refs (n :: r) _) as [[q rest]|].
    + split; [exact KK|]. now apply fo_import.
    + destruct (fetch builtins_path (definitions (db st2))) as [b|] eqn:EB; [|exact I]. cbn [pure sbind]. apply fetched in EB.
      destruct (scope_contains_path b (n :: r)) eqn:EC.
      * split; [exact KK|]. apply fo_builtin; auto. exists b. split; [exact EB|]. now apply contains_has_path.
      * split; [exact KK|]. apply fo_nothing; auto. intros (b' & EB' & H). assert (b' = b) as -> by congruence.
        apply contains_has_path in H. congruence.
Qed.

Lemma kept_unchanged st st' : well_told st -> kept st st' -> unchanged st st'.
Proof.
  intros W K x Hx. destruct (tables_defined _ W K Hx) as (D & S & R). split; [now apply (kept_visited W K)|].
  split; [intros o Ho; rewrite D; tauto|]. split; [exact S|]. split; [exact R|].
  destruct W as [W _]. destruct (W x) as [fs T]. destruct (K x fs Hx T) as [_ T'].
  destruct T as (A1 & A2 & A3 & A4 & _ & _ & A5 & _), T' as (B1 & B2 & B3 & B4 & _ & _ & B5 & _).
  repeat split; intros o; rewrite ?A1, ?A2, ?A3, ?A4, ?B1, ?B2, ?B3, ?B4; try reflexivity.
  assert (HB : forall (st : state), bases (db st) (x, o) = dget_or o [] (dget_or x [] (superclasses (db st)))).
  { intros s. unfold bases, dget_or. cbn [fst snd]. exact (match dget x (superclasses (db s)) as y return
      (match y with Some t => match dget o t with Some bs => bs | None => [] end | None => [] end
       = match dget o (match y with Some a => a | None => [] end) with Some a => a | None => [] end) with Some _ => eq_refl | None => eq_refl end). }
  now rewrite !HB, A5, B5.
Qed.
Lemma looks_up limit m parent o st : well_told st -> In builtins_path (visited st) ->
  match resolve_in parse limit m parent o st with
  | Done st' q => unchanged st st' /\ found (gives_up st) st' m parent o (Some q)
  | Missing st' => unchanged st st' /\ found (gives_up st) st' m parent o None
  | Fails _ => True
  end.
Proof.
  intros W Hb. pose proof (resolve_answers limit m parent o W Hb) as A.
  destruct (resolve_in parse limit m parent o st) as [st' q|st'|e]; [| |exact I]; destruct A as [[_ K] F]; (split; [now apply kept_unchanged|exact F]).
Qed.

(** *** One answer *)
Lemma imported_once st m o q rest q' rest' : imported_as st m o q rest -> imported_as st m o q' rest' -> q = q' /\ rest = rest'.
Proof.
  intros (p & A & B & C & D) (p' & A' & B' & C' & D').
  destruct (Nat.lt_trichotomy (length p) (length p')) as [L|[L|L]].
  - rewrite (D p' rest' B' L) in C'. discriminate.
  - assert (p = p' /\ rest = rest') as [-> ->].
    { rewrite B in B'. clear -B' L. revert p' L B'. induction p as [|x p IH]; intros [|y p'] L B'; cbn in *; try lia; [auto|].
      injection B' as -> B'. destruct (IH p') as [-> ->]; auto. }
    split; [congruence|reflexivity].
  - rewrite (D' p rest B L) in C. discriminate.
Qed.
Lemma imported_not st m o q rest : imported_as st m o q rest -> not_imported st m o -> False.
Proof. intros (p & A & B & C & _) N. rewrite (N p rest A B) in C. discriminate. Qed.
Lemma found_once st m parent o r : found (fun _ => False) st m parent o r -> forall r', found (fun _ => False) st m parent o r' -> r = r'.
Proof.
  induction 1 as [m parent n r Hm D|m parent n r Hm D1 D2|m parent n r before s aft q Hm [U1 U2] HS HB IHB HF IH|m parent n r q rest Hm [U1 U2] HS IHS HI
                 |m parent n r Hm [U1 U2] HS IHS HN HD|m parent n r Hm [U1 U2] HS IHS HN HD|m parent o HG]; [| | | | | |contradiction]; intros r' H'.
  all: inversion H' as [m' parent' n' r1 Hm' D'|m' parent' n' r1 Hm' D1' D2'|m' parent' n' r1 before' s' aft' q' Hm' [U1' U2'] HS' HB' HF'
      |m' parent' n' r1 q' rest' Hm' [U1' U2'] HS' HI'|m' parent' n' r1 Hm' [U1' U2'] HS' HN' HD'|m' parent' n' r1 Hm' [U1' U2'] HS' HN' HD'|m' parent' o' HG']; subst;
    try contradiction; try reflexivity.
  all: try (exfalso; now apply (imported_not HI)); try (exfalso; now apply (imported_not HI')).
  (* star imports on the left *)
  - rewrite HS in HS'. clear HS. revert before' HS' HB'. induction before as [|b before IHbefore]; intros [|b' before'] E HB'; cbn in E; injection E as -> E.
    + now apply IH.
    + specialize (IH None (HB' _ (or_introl eq_refl))). discriminate.
    + specialize (IHB s' (or_introl eq_refl) _ HF'). discriminate.
    + apply (IHbefore (fun x Hx => HB x (or_intror Hx)) (fun x Hx => IHB x (or_intror Hx)) before' E (fun x Hx => HB' x (or_intror Hx))).
  - specialize (IH None (HS' s ltac:(rewrite HS; apply in_or_app; right; now left))). discriminate.
  - specialize (IH None (HS' s ltac:(rewrite HS; apply in_or_app; right; now left))). discriminate.
  - specialize (IH None (HS' s ltac:(rewrite HS; apply in_or_app; right; now left))). discriminate.
  (* on the right *)
  - specialize (IHS s' ltac:(rewrite HS'; apply in_or_app; right; now left) _ HF'). discriminate.
  - destruct (imported_once HI HI') as [-> ->]. reflexivity.
  - specialize (IHS s' ltac:(rewrite HS'; apply in_or_app; right; now left) _ HF'). discriminate.
  - specialize (IHS s' ltac:(rewrite HS'; apply in_or_app; right; now left) _ HF'). discriminate.
Qed.

(** *** An answer *)
Lemma starred_read st m s : all_read st m -> In s (star_imports (db st) m) -> all_read st s.
Proof. intros A Hs x Hx. apply A. now apply st_step with (m' := s). Qed.
Lemma defined_dec (d : database) m p : {defined d m p} + {~ defined d m p}.
Proof.
  destruct (dget m (definitions d)) as [s|] eqn:E; [|right; intros (s & H & _); congruence].
  destruct (scope_contains_path s p) eqn:C; [left; exists s; split; [exact E|now apply contains_has_path]|].
  right. intros (s' & H & P). assert (s' = s) as -> by congruence. apply contains_has_path in P. congruence.
Qed.
Lemma answer_exists st m : no_cycle st m -> all_read st m ->
  forall parent n (r : path), exists x, found (fun _ => False) st m parent (n :: r) x.
Proof.
  induction 1 as [m _ IH]. intros A parent n r. destruct (A m (st_self st m)) as (Hm & Hk & Hr).
  destruct (defined_dec (db st) m (parent ++ [n])) as [D1|D1]; [eexists; now apply fo_enclosing|].
  destruct (defined_dec (db st) m [n]) as [D2|D2]; [eexists; now apply fo_module|].
  assert (S : (forall s, In s (star_imports (db st) m) -> found (fun _ => False) st s [] (n :: r) None)
    \/ exists before s later q, star_imports (db st) m = before ++ s :: later
         /\ (forall b, In b before -> found (fun _ => False) st b [] (n :: r) None) /\ found (fun _ => False) st s [] (n :: r) (Some q)).
  { assert (I : forall s, In s (star_imports (db st) m) -> exists x, found (fun _ => False) st s [] (n :: r) x).
    { intros s Hs. apply IH; [exact Hs|]. now apply starred_read with (m := m). }
    clear -I. induction (star_imports (db st) m) as [|s l IHl]; [left; now intros s []|].
    destruct (I s (or_introl eq_refl)) as [[q|] F].
    - right. exists [], s, l, q. split; [reflexivity|]. split; [now intros b []|exact F].
    - destruct (IHl (fun x Hx => I x (or_intror Hx))) as [H|(before & s' & later & q & -> & HB & HF)].
      + left. intros x [<-|Hx]; auto.
      + right. exists (s :: before), s', later, q. split; [reflexivity|]. split; [|exact HF]. intros b [<-|Hb]; auto. }
  destruct S as [S|(before & s & later & q & E & HB & HF)]; [|eexists; eapply fo_star; try eassumption; now split].
  unfold has_references in Hr. destruct (dget m (references (db st))) as [refs|] eqn:ER; [|apply dget_None in ER; contradiction].
  pose proof (@longest_imported st m refs n r ER) as L. destruct (longest_reference refs (n :: r) _) as [[q rest]|].
  - eexists. apply fo_import; try eassumption. now split.
  - destruct (defined_dec (db st) builtins_path (n :: r)); eexists; [apply fo_builtin|apply fo_nothing]; try eassumption; now split.
Qed.
Definition outcome (st : state) (r : option qualified_path) : step qualified_path :=
  match r with Some q => Done st q | None => Missing st end.
Lemma parse_read st m s : In m (visited st) -> dget m (definitions (db st)) = Some s -> parse m st = Done st s.
Proof.
  intros Hm E. apply mem_In in Hm. destruct fuel; cbn [parse_stub_scope]; rewrite Hm; unfold fetch; rewrite E; reflexivity.
Qed.
Lemma each_bound (P : path -> nat -> Prop) l : (forall s, In s l -> exists k, forall j, k <= j -> P s j) ->
  exists k, forall s, In s l -> forall j, k <= j -> P s j.
Proof.
  induction l as [|s l IH]; intros H; [exists 0; now intros s []|].
  destruct (H s (or_introl eq_refl)) as [k Hk]. destruct (IH (fun x Hx => H x (or_intror Hx))) as [k' Hk'].
  exists (Nat.max k k'). intros x [<-|Hx] j Hj; [apply Hk; lia|apply Hk'; [exact Hx|lia]].
Qed.
Lemma tried_none f subs st : (forall s, In s subs -> f s st = Missing st) -> try_submodules f subs st = Done st None.
Proof.
  induction subs as [|s subs IH]; intros H; [reflexivity|]. cbn [try_submodules]. rewrite (H s (or_introl eq_refl)). apply IH. intros x Hx. apply H. now right.
Qed.
Lemma tried_some f before s later st q : (forall s, In s before -> f s st = Missing st) -> f s st = Done st q ->
  try_submodules f (before ++ s :: later) st = Done st (Some q).
Proof.
  induction before as [|b before IH]; intros H E; cbn [app try_submodules]; [now rewrite E|].
  rewrite (H b (or_introl eq_refl)). apply IH; [|exact E]. intros x Hx. apply H. now right.
Qed.
Lemma found_resolved st m parent o r : known (db st) builtins_path ->
  found (fun _ => False) st m parent o r -> all_read st m ->
  exists k, forall limit, k <= limit -> resolve_in parse limit m parent o st = outcome st r.
Proof.
  intros KB H.
  assert (B : forall limit m parent n (r : path), all_read st m ->
    exists s, dget m (definitions (db st)) = Some s
    /\ resolve_in parse (S limit) m parent (n :: r) st
       = if scope_contains_path s (parent ++ [n]) then Done st (m, parent ++ n :: r)
         else if dmem n (entries s) then Done st (m, n :: r)
         else
            run [st, found] <- try_submodules (fun sub => resolve_in parse limit sub [] (n :: r)) (star_imports (db st) m) st;
            match found with
            | Some q => Done st q
            | None =>
                run [st, module_references] <- pure st (fetch m (references (db st)));
                match longest_reference module_references (n :: r) (length (n :: r)) with
                | Some (referent, rest) => Done st (fst referent, snd referent ++ rest)
                | None =>
                    run [st, builtins] <- pure st (fetch builtins_path (definitions (db st)));
                    if scope_contains_path builtins (n :: r) then Done st (builtins_path, n :: r)
                    else Missing st
                end
            end).
  { intros limit m' parent' n r' A. destruct (A m' (st_self st m')) as (Hm & Hk & _).
    unfold known in Hk. destruct (dget m' (definitions (db st))) as [s|] eqn:E; [|apply dget_None in E; contradiction].
    exists s. split; [reflexivity|]. cbn [resolve_in]. rewrite (@parse_read st m' s Hm E). cbn [sbind]. now rewrite star_imports_or. }
  assert (C : forall s m p, dget m (definitions (db st)) = Some s -> scope_contains_path s p = true <-> defined (db st) m p).
  { intros s m' p D1. rewrite contains_has_path. unfold defined. rewrite D1. split; [intros X; now exists s|]. intros (s' & [= <-] & X). exact X. }
  assert (C' : forall s m p, dget m (definitions (db st)) = Some s -> ~ defined (db st) m p -> scope_contains_path s p = false).
  { intros s m' p E N. destruct (scope_contains_path s p) eqn:X; [|reflexivity]. now apply (C s m' p E) in X. }
  assert (M : forall s m n, dget m (definitions (db st)) = Some s -> dmem n (entries s) = true <-> defined (db st) m [n]).
  { intros s m' n E. rewrite <- (C s m' [n] E), contains_has_path. unfold dmem. split.
    - destruct (dget n (entries s)) as [s'|] eqn:E'; [|discriminate]. intros _. econstructor; [exact E'|constructor].
    - intros X. inversion X; subst. destruct (dget n (entries s)); [reflexivity|discriminate]. }
  assert (M' : forall s m n, dget m (definitions (db st)) = Some s -> ~ defined (db st) m [n] -> dmem n (entries s) = false).
  { intros s m' n E N. destruct (dmem n (entries s)) eqn:X; [|reflexivity]. now apply (M s m' n E) in X. }
  assert (T : forall m parent n (r : path), all_read st m -> ~ defined (db st) m (parent ++ [n]) -> ~ defined (db st) m [n] ->
    (forall s, In s (star_imports (db st) m) -> all_read st s -> exists k, forall limit, k <= limit -> resolve_in parse limit s [] (n :: r) st = Missing st) ->
    exists k refs, dget m (references (db st)) = Some refs /\ forall limit, k <= limit ->
      resolve_in parse (S limit) m parent (n :: r) st
      = match longest_reference refs (n :: r) (length (n :: r)) with
        | Some (referent, rest) => Done st (fst referent, snd referent ++ rest)
        | None =>
            run [st, builtins] <- pure st (fetch builtins_path (definitions (db st)));
            if scope_contains_path builtins (n :: r) then Done st (builtins_path, n :: r)
            else Missing st
        end).
  { intros m' parent' n r' A U1 U2 HS.
    destruct (@each_bound (fun b limit => resolve_in parse limit b [] (n :: r') st = Missing st) (star_imports (db st) m')) as [k Hk].
    { intros b Hb. apply HS; [exact Hb|]. now apply starred_read with (m := m'). }
    destruct (A m' (st_self st m')) as (_ & _ & Hr). unfold has_references in Hr.
    destruct (dget m' (references (db st))) as [refs|] eqn:ER; [|apply dget_None in ER; contradiction].
    exists k, refs. split; [reflexivity|]. intros limit Hl. destruct (B limit m' parent' n r' A) as (s0 & E & ->).
    rewrite (C' s0 m' _ E U1), (M' s0 m' _ E U2).
    rewrite (@tried_none (fun sub => resolve_in parse limit sub [] (n :: r'))) by (intros b Hb; now apply Hk).
    cbn [sbind]. unfold fetch at 1. rewrite ER. reflexivity. }
  induction H as [m parent n r Hm D|m parent n r Hm D1 D2|m parent n r before s aft q Hm [U1 U2] HS HB IHB HF IH|m parent n r q rest Hm [U1 U2] HS IHS HI
                 |m parent n r Hm [U1 U2] HS IHS HN HD|m parent n r Hm [U1 U2] HS IHS HN HD|m parent o HG]; [| | | | | |contradiction]; intros A.
  - exists 1. intros [|limit] Hl; [lia|]. destruct (B limit m parent n r A) as (s & E & ->). now rewrite (proj2 (C s m _ E) D).
  - exists 1. intros [|limit] Hl; [lia|]. destruct (B limit m parent n r A) as (s & E & ->). rewrite (C' s m _ E D1). now rewrite (proj2 (M s m _ E) D2).
  - destruct (IH (@starred_read st m s A ltac:(rewrite HS; apply in_or_app; right; now left))) as [k1 H1].
    destruct (@each_bound (fun b limit => resolve_in parse limit b [] (n :: r) st = Missing st) before) as [k2 H2].
    { intros b Hb. destruct (IHB b Hb (@starred_read st m b A ltac:(rewrite HS; apply in_or_app; now left))) as [k Hk]. now exists k. }
    exists (S (Nat.max k1 k2)). intros [|limit] Hl; [lia|]. destruct (B limit m parent n r A) as (s0 & E & ->).
    rewrite (C' s0 m _ E U1), (M' s0 m _ E U2), HS.
    rewrite (@tried_some (fun sub => resolve_in parse limit sub [] (n :: r)) before s aft st q); [reflexivity| |].
    + intros b Hb. apply H2; [exact Hb|lia].
    + apply H1. lia.
  - destruct (T m parent n r A U1 U2 IHS) as (k & refs & ER & Hk). exists (S k). intros [|limit] Hl; [lia|]. rewrite Hk by lia.
    pose proof (@longest_imported st m refs n r ER) as L. destruct (longest_reference refs (n :: r) _) as [[q' rest']|].
    + destruct (imported_once L HI) as [-> ->]. reflexivity.
    + exfalso. eapply imported_not; eassumption.
  - destruct (T m parent n r A U1 U2 IHS) as (k & refs & ER & Hk). exists (S k). intros [|limit] Hl; [lia|]. rewrite Hk by lia.
    pose proof (@longest_imported st m refs n r ER) as L. destruct (longest_reference refs (n :: r) _) as [[q' rest']|].
    + exfalso. eapply imported_not; eassumption.
    + unfold known in KB. destruct (dget builtins_path (definitions (db st))) as [b|] eqn:EB; [|apply dget_None in EB; contradiction].
      unfold fetch. rewrite EB. cbn [pure sbind]. now rewrite (proj2 (C b builtins_path _ EB) HD).
  - destruct (T m parent n r A U1 U2 IHS) as (k & refs & ER & Hk). exists (S k). intros [|limit] Hl; [lia|]. rewrite Hk by lia.
    pose proof (@longest_imported st m refs n r ER) as L. destruct (longest_reference refs (n :: r) _) as [[q' rest']|].
    + exfalso. eapply imported_not; eassumption.
    + unfold known in KB. destruct (dget builtins_path (definitions (db st))) as [b|] eqn:EB; [|apply dget_None in EB; contradiction].
      unfold fetch. rewrite EB. cbn [pure sbind]. now rewrite (C' b builtins_path _ EB HD).
Qed.

(** *** Which lookups end *)
Lemma split_twice (A : Type) (b1 b2 : list A) s1 s2 l1 l2 : b1 ++ s1 :: l1 = b2 ++ s2 :: l2 ->
  In s1 b2 \/ s1 = s2 \/ In s2 b1.
Proof.
  revert b2. induction b1 as [|x b1 IH]; intros [|y b2] E; cbn in E; injection E as E1 E2; subst; auto.
  - left. now left.
  - right. right. now left.
  - destruct (IH b2 E2) as [H|[H|H]]; [left; now right|auto|right; right; now right].
Qed.
Lemma found_ends st m parent o r : found (fun _ => False) st m parent o r -> comes_to_an_end st m parent o.
Proof.
  unfold comes_to_an_end.
  induction 1 as [m parent n r Hm D|m parent n r Hm D1 D2|m parent n r before s aft q Hm U HS HB IHB HF IH|m parent n r q rest Hm U HS IHS HI
                 |m parent n r Hm U HS IHS HN HD|m parent n r Hm U HS IHS HN HD|m parent o HG]; [| | | | | |contradiction];
    constructor; intros y Y; inversion Y as [m' p' n' r' b' s' a' E' [U1 U2] S' B' Ey Ex]; injection E' as <- <-; subst.
  - contradiction.
  - contradiction.
  - assert (E : b' ++ s' :: a' = before ++ s :: aft) by (transitivity (star_imports (db st) m); [now symmetry|exact HS]).
    destruct (split_twice _ _ _ _ _ _ E) as [I|[->|I]]; [now apply IHB|exact IH|].
    discriminate (found_once (B' s I) HF).
  - apply IHS. rewrite S'. apply in_or_app. right. now left.
  - apply IHS. rewrite S'. apply in_or_app. right. now left.
  - apply IHS. rewrite S'. apply in_or_app. right. now left.
Qed.
Lemma end_found st n (r : path) x : Acc (asks st (n :: r)) x -> all_read st (fst x) ->
  exists y, found (fun _ => False) st (fst x) (snd x) (n :: r) y.
Proof.
  induction 1 as [[m parent] _ IH]. cbn [fst snd]. intros A. destruct (A m (st_self st m)) as (Hm & Hk & Hr).
  destruct (defined_dec (db st) m (parent ++ [n])) as [D1|D1]; [eexists; now apply fo_enclosing|].
  destruct (defined_dec (db st) m [n]) as [D2|D2]; [eexists; now apply fo_module|].
  assert (S : (forall s, In s (star_imports (db st) m) -> found (fun _ => False) st s [] (n :: r) None)
    \/ exists before s later q, star_imports (db st) m = before ++ s :: later
         /\ (forall b, In b before -> found (fun _ => False) st b [] (n :: r) None) /\ found (fun _ => False) st s [] (n :: r) (Some q)).
  { assert (G : forall l before, star_imports (db st) m = before ++ l ->
      (forall b, In b before -> found (fun _ => False) st b [] (n :: r) None) ->
      (forall s, In s (star_imports (db st) m) -> found (fun _ => False) st s [] (n :: r) None)
      \/ exists before s later q, star_imports (db st) m = before ++ s :: later
         /\ (forall b, In b before -> found (fun _ => False) st b [] (n :: r) None) /\ found (fun _ => False) st s [] (n :: r) (Some q)).
    { induction l as [|s l IHl]; intros before E HB.
      - left. intros s Hs. rewrite E, app_nil_r in Hs. now apply HB.
      - destruct (IH (s, []) (@asks_star st (n :: r) m parent n r before s l eq_refl (conj D1 D2) E HB)) as [[q|] F]; cbn [fst snd] in *.
        + apply starred_read with (m := m); [exact A|]. rewrite E. apply in_or_app. right. now left.
        + right. now exists before, s, l, q.
        + apply (IHl (before ++ [s])); [now rewrite <- app_assoc|].
          intros b Hb. apply in_app_or in Hb. destruct Hb as [Hb|[<-|[]]]; auto. }
    apply (G (star_imports (db st) m) []); [reflexivity|]. now intros b []. }
  destruct S as [S|(before & s & later & q & E & HB & HF)]; [|eexists; eapply fo_star; try eassumption; now split].
  unfold has_references in Hr. destruct (dget m (references (db st))) as [refs|] eqn:ER; [|apply dget_None in ER; contradiction].
  pose proof (@longest_imported st m refs n r ER) as L. destruct (longest_reference refs (n :: r) _) as [[q rest]|].
  - eexists. apply fo_import; try eassumption. now split.
  - destruct (defined_dec (db st) builtins_path (n :: r)); eexists; [apply fo_builtin|apply fo_nothing]; try eassumption; now split.
Qed.
Lemma tried_found st o limit l :
  (forall s, In s l -> resolve_in parse limit s [] o st = Fails RecursionError
     \/ exists y, found (fun _ => False) st s [] o y /\ resolve_in parse limit s [] o st = outcome st y) ->
  try_submodules (fun sub => resolve_in parse limit sub [] o) l st = Fails RecursionError
  \/ (forall s, In s l -> found (fun _ => False) st s [] o None)
     /\ try_submodules (fun sub => resolve_in parse limit sub [] o) l st = Done st None
  \/ exists before s later q, l = before ++ s :: later
     /\ (forall b, In b before -> found (fun _ => False) st b [] o None) /\ found (fun _ => False) st s [] o (Some q)
     /\ try_submodules (fun sub => resolve_in parse limit sub [] o) l st = Done st (Some q).
Proof.
  induction l as [|s l IH]; intros H; [right; left; split; [now intros s []|reflexivity]|]. cbn [try_submodules].
  destruct (H s (or_introl eq_refl)) as [E|([q|] & F & E)]; rewrite E; cbn [outcome].
  - now left.
  - right. right. exists [], s, l, q. repeat split; auto. now intros b [].
  - destruct (IH (fun x Hx => H x (or_intror Hx))) as [E'|[[HA E']|(before & s' & later & q & -> & HB & HF & E')]]; rewrite E'.
    + now left.
    + right. left. split; [|reflexivity]. intros x [<-|Hx]; auto.
    + right. right. exists (s :: before), s', later, q. repeat split; auto. intros b [<-|Hb]; auto.
Qed.
Lemma resolve_found st n (r : path) : known (db st) builtins_path -> forall limit m parent, all_read st m ->
  resolve_in parse limit m parent (n :: r) st = Fails RecursionError
  \/ exists y, found (fun _ => False) st m parent (n :: r) y /\ resolve_in parse limit m parent (n :: r) st = outcome st y.
Proof.
  intros KB. induction limit as [|limit IH]; intros m parent A; [now left|].
  destruct (A m (st_self st m)) as (Hm & Hk & Hr). unfold known in Hk, KB.
  destruct (dget m (definitions (db st))) as [s|] eqn:E; [|apply dget_None in E; contradiction].
  destruct (dget builtins_path (definitions (db st))) as [b|] eqn:EB; [|apply dget_None in EB; contradiction].
  assert (C : forall s m p, dget m (definitions (db st)) = Some s -> scope_contains_path s p = true <-> defined (db st) m p).
  { intros s0 m' p D1. rewrite contains_has_path. unfold defined. rewrite D1. split; [intros X; now exists s0|]. intros (s' & [= <-] & X). exact X. }
  cbn [resolve_in]. rewrite (@parse_read st m s Hm E). cbn [sbind].
  destruct (scope_contains_path s (parent ++ [n])) eqn:C1.
  { right. exists (Some (m, parent ++ n :: r)). split; [|reflexivity]. apply fo_enclosing; [exact Hm|]. now apply (C s). }
  assert (N1 : ~ defined (db st) m (parent ++ [n])) by (intros X; apply (C s m _ E) in X; congruence).
  assert (M : dmem n (entries s) = true <-> defined (db st) m [n]).
  { rewrite <- (C s m [n] E), contains_has_path. unfold dmem. split.
    - destruct (dget n (entries s)) as [s'|] eqn:E'; [|discriminate]. intros _. econstructor; [exact E'|constructor].
    - intros X. inversion X; subst. destruct (dget n (entries s)); [reflexivity|discriminate]. }
  destruct (dmem n (entries s)) eqn:C2.
  { right. exists (Some (m, n :: r)). split; [|reflexivity]. apply fo_module; [exact Hm|exact N1|]. now apply M. }
  assert (N2 : ~ defined (db st) m [n]) by (intros X; apply M in X; congruence).
  rewrite star_imports_or.
  destruct (@tried_found st (n :: r) limit (star_imports (db st) m)) as [E'|[[HA E']|(before & s' & later & q & HS & HB & HF & E')]].
  { intros x Hx. apply IH. now apply starred_read with (m := m). }
  - left. now rewrite E'.
  - rewrite E'. cbn [sbind]. unfold has_references in Hr.
    destruct (dget m (references (db st))) as [refs|] eqn:ER; [|apply dget_None in ER; contradiction].
    unfold fetch. rewrite ER. cbn [pure sbind].
    pose proof (@longest_imported st m refs n r ER) as L. destruct (longest_reference refs (n :: r) _) as [[q rest]|].
    + right. eexists. split; [apply fo_import; try eassumption; now split|reflexivity].
    + rewrite EB. cbn [pure sbind]. right. destruct (scope_contains_path b (n :: r)) eqn:CB.
      * eexists. split; [apply fo_builtin; try eassumption; [now split|now apply (C b)]|reflexivity].
      * eexists. split; [apply fo_nothing; try eassumption; [now split|]|reflexivity]. intros X. apply (C b _ _ EB) in X. congruence.
  - rewrite E'. cbn [sbind]. right. eexists. split; [eapply fo_star; try eassumption; now split|reflexivity].
Qed.
Lemma ends_iff st m parent n (r : path) : all_read st m -> known (db st) builtins_path ->
  (exists limit, resolve_in parse limit m parent (n :: r) st <> Fails RecursionError) <-> comes_to_an_end st m parent (n :: r).
Proof.
  intros A K. split.
  - intros [limit H]. destruct (resolve_found n r K limit parent A) as [E|(y & F & _)]; [contradiction|]. now apply found_ends in F.
  - intros H. destruct (end_found H A) as [y F]. cbn [fst snd] in F. destruct (found_resolved K F A) as [k Hk].
    exists k. rewrite Hk by lia. now destruct y.
Qed.
Lemma acc_no_cycle (A : Type) (R : A -> A -> Prop) x : Acc R x -> ~ clos_trans A R x x.
Proof. intros H. apply Acc_clos_trans in H. induction H as [x _ IH]. intros C. exact (IH x C C). Qed.
Lemma cycle_fails st m parent n (r : path) s : all_read st m -> known (db st) builtins_path ->
  clos_refl_trans _ (asks st (n :: r)) (s, []) (m, parent) -> clos_trans _ (asks st (n :: r)) (s, []) (s, []) ->
  forall limit, resolve_in parse limit m parent (n :: r) st = Fails RecursionError.
Proof.
  intros A K S C limit. destruct (resolve_found n r K limit parent A) as [E|(y & F & _)]; [exact E|]. exfalso.
  apply found_ends in F. unfold comes_to_an_end in F. apply (@acc_no_cycle _ (asks st (n :: r)) (s, [])); [|exact C].
  revert F. clear -S. remember (m, parent) as x eqn:E. clear m parent E. remember (s, []) as y eqn:E. clear E.
  induction S as [x y H|x|x y z H1 IH1 H2 IH2]; intros F; [now apply (Acc_inv F)|exact F|auto].
Qed.
End Names.

(** *** States of runs *)
Lemma earlier_well_told st final : earlier st final -> well_told st.
Proof.
  intros (_ & A & B). split; [|exact A]. intros x. destruct (mem x (visited st)) eqn:E.
  - apply mem_In in E. destruct (B x E) as (fs & more & H & _). now exists fs.
  - apply mem_not_In in E. exists []. now apply A.
Qed.
Lemma builtins_first source is_package condition fuel modules final u :
  parse_modules source is_package condition fuel modules = Done final u -> exists more, visited final = builtins_path :: more.
Proof.
  intros E. unfold parse_modules in E. cbn [each] in E.
  pose proof (@parse_leads source is_package condition fuel builtins_path empty_state untouched_empty) as H.
  destruct (parse_stub_scope source is_package condition fuel builtins_path empty_state) as [st1 s|st1|e]; cbn [sbind] in E; try discriminate E.
  destruct H as (es & T & K). destruct (K (fun _ => True) (fun _ _ => I)) as [[[] _]|(_ & body & es' & _ & -> & _)].
  pose proof (tr_steps T) as S1. inversion S1 as [|e0 s0 es0 s0' _ S2]; subst.
  destruct (@visited_more _ _ _ S2) as [more1 V1]. cbn in V1.
  assert (U1 : untouched st1) by (apply (untouched_steps (tr_steps T)), untouched_empty).
  pose proof (@goes_steps (told source is_package condition) _ _ _ (@parse_all_goes source is_package condition fuel modules st1 U1)) as G.
  rewrite E in G. destruct G as (es2 & G). destruct (@visited_more _ _ _ G) as [more2 V2]. rewrite V2, V1. eexists. reflexivity.
Qed.
Lemma run_states source is_package condition fuel modules final u st :
  parse_modules source is_package condition fuel modules = Done final u -> earlier st final -> visited st <> [] ->
  well_told st /\ In builtins_path (visited st).
Proof.
  intros E H N. split; [now apply earlier_well_told with (final := final)|].
  destruct (builtins_first _ _ _ _ _ E) as [more V]. destruct H as ((more' & V') & _). rewrite V in V'.
  destruct (visited st) as [|x l]; [congruence|]. injection V' as -> _. now left.
Qed.
