(** Proofs about the index of objects. *)
From Verif Require Import Base Catalog Scoping Stubs Indexing SpecIndexing.

Lemma split_from_not_nil c part s : split_from c part s <> [].
Proof. revert part. induction s as [|x r IH]; intros part; cbn; [easy|]. destruct (N.eqb x c); [easy|apply IH]. Qed.

(** ** The index as a fold of locations *)
Definition lookup (q : qualified_path) (paths : index) : list qualified_path :=
  dget_or (snd q) [] (dget_or (fst q) [] paths).
Definition add_locations (m : path) (es : list (qualified_path * path)) (paths : index) : index :=
  fold_left (fun ps e => add_location (fst e) (m, snd e) ps) es paths.

Lemma lookup_locations q l paths : locations paths q l <-> In l (lookup q paths).
Proof.
  unfold locations, lookup, dget_or. split.
  - intros (os & ls & A & B & C). now rewrite A, B.
  - destruct (dget (fst q) paths) as [os|] eqn:A; [|intros []]. destruct (dget (snd q) os) as [ls|] eqn:B; [|intros []]. eauto.
Qed.
Lemma lookup_eq q (paths : index) os ls : dget (fst q) paths = Some os -> dget (snd q) os = Some ls -> lookup q paths = ls.
Proof.
  intros A B. pose (get := fun (A : Type) (x : option (list A)) => match x with Some a => a | None => [] end).
  unfold lookup. pose proof (f_equal (get _) A) as A'. cbn in A'.
  transitivity (dget_or (snd q) [] os); [exact (f_equal (dget_or (snd q) []) A')|exact (f_equal (get _) B)].
Qed.
Lemma lookup_add q q' l paths : lookup q (add_location q' l paths) = lookup q paths ++ (if q' == q then [l] else []).
Proof.
  unfold lookup, add_location, dmodify, dget_or. rewrite dget_dset. destruct q as [qm qo], q' as [qm' qo']; cbn [fst snd].
  destruct (eqb_reflect qm qm') as [->|N].
  - rewrite dget_dset. destruct (eqb_reflect qo qo') as [->|N'].
    + rewrite eqb_refl. reflexivity.
    + replace ((qm', qo') == (qm', qo)) with false by (symmetry; apply eqb_neq; congruence). now rewrite app_nil_r.
  - replace ((qm', qo') == (qm, qo)) with false by (symmetry; apply eqb_neq; congruence). now rewrite app_nil_r.
Qed.
Lemma lookup_adds m q es paths :
  lookup q (add_locations m es paths) = lookup q paths ++ map (fun e => (m, snd e)) (filter (fun e => fst e == q) es).
Proof.
  revert paths. induction es as [|[q' p] r IH]; intros paths; cbn [add_locations fold_left filter map].
  - now rewrite app_nil_r.
  - change (fold_left _ r ?x) with (add_locations m r x). rewrite IH, lookup_add. cbn [fst snd].
    destruct (q' == q); cbn; now rewrite <- ?app_assoc.
Qed.

(** Indexes are dictionaries of dictionaries. *)
Definition well_formed (paths : index) : Prop := NoDup (dkeys paths) /\ forall m os, In (m, os) paths -> NoDup (dkeys os).
Lemma dset_In {K A} `{Eqb K} (k k' : K) (a a' : A) d : In (k', a') (dset k a d) -> (k', a') = (k, a) \/ In (k', a') d.
Proof.
  induction d as [|[k1 a1] r IH]; cbn [dset]; intros I.
  - destruct I as [E|[]]; auto.
  - revert I. change (dset k a ((k1, a1) :: r)) with (if k == k1 then (k1, a) :: r else (k1, a1) :: dset k a r).
    destruct (eqb_reflect k k1) as [->|_]; cbn [In]; intros I.
    + destruct I as [E|I]; auto.
    + destruct I as [E|I]; auto. destruct (IH I); auto.
Qed.
Lemma well_formed_add q l paths : well_formed paths -> well_formed (add_location q l paths).
Proof.
  intros [N U]. unfold add_location, dmodify. split; [now apply NoDup_dset|]. intros m os I.
  assert (G : forall k, NoDup (dkeys (dget_or k [] paths))).
  { intros k. unfold dget_or. match goal with |- context [match ?x with _ => _ end] => destruct x as [d|] eqn:D end; [|constructor]. apply (U k). now apply dget_Some_In. }
  apply dset_In in I as [[= -> ->]|I]; [|now apply (U m)]. apply NoDup_dset. apply G.
Qed.
Lemma well_formed_adds m es paths : well_formed paths -> well_formed (add_locations m es paths).
Proof.
  revert paths. induction es as [|e r IH]; intros paths W; [exact W|]. cbn [add_locations fold_left]. apply IH. now apply well_formed_add.
Qed.

Section Index.
Context {O : Type} `{Eqb O}.
Variable h : heap O.

Lemma is_type_class v : is_type h v = true <-> is_class h v.
Proof. unfold is_type, is_class. destruct (describe h v); split; intros; try easy; try (destruct H0; discriminate); eauto. Qed.
Lemma is_type_not_class v : is_type h v = false <-> ~ is_class h v.
Proof. rewrite <- is_type_class. now destruct (is_type h v). Qed.
Lemma qualified_type v : is_type h v = true -> is_nil (fst (qualified h v)) && is_nil (snd (qualified h v)) = false.
Proof.
  unfold is_type, qualified. destruct (describe h v); try discriminate. intros _. cbn.
  unfold path_from_string, split_on. pose proof (split_from_not_nil dot [] (type_module t)).
  now destruct (split_from dot [] (type_module t)).
Qed.

(** ** Events *)
Section Members.
Variable inner : O -> path -> list O -> res (list (qualified_path * path)).
Fixpoint events_members (parent : path) (visited : list O) (items : list (pystr * O)) : res (list (qualified_path * path)) :=
  match items with
  | [] => Ok []
  | (name, v) :: r =>
      let* es := (if is_type h v
                  then if mem v visited then Ok []
                       else let* es := inner v (parent ++ [name]) (v :: visited) in Ok ((qualified h v, parent ++ [name]) :: es)
                  else Ok (if is_nil (snd (qualified h v)) then [] else [(qualified h v, parent ++ [name])])) in
      let* rest := events_members parent visited r in
      Ok (es ++ rest)
  end.
End Members.
Fixpoint events (fuel : nat) (ns : O) (parent : path) (visited : list O) : res (list (qualified_path * path)) :=
  match fuel with
  | 0 => Err RecursionError
  | S fuel => events_members (events fuel) parent visited (members h ns)
  end.

Lemma index_events fuel m ns parent visited paths :
  index_module_or_type h fuel m ns parent visited paths
  = let* es := events fuel ns parent visited in Ok (add_locations m es paths).
Proof.
  revert ns parent visited paths. induction fuel as [|fuel IH]; intros ns parent visited paths; [reflexivity|].
  cbn [index_module_or_type events]. generalize (members h ns). intros items. revert paths.
  induction items as [|[name v] r IHr]; intros paths; [reflexivity|]. cbn [index_members events_members].
  destruct (is_type h v) eqn:T.
  - destruct (mem v visited).
    + cbn [bind_res]. rewrite IHr. now destruct (events_members (events fuel) parent visited r).
    + rewrite (qualified_type v T). rewrite IH.
      destruct (events fuel v (parent ++ [name]) (v :: visited)) as [es|x]; cbn [bind_res]; [|reflexivity].
      rewrite IHr. destruct (events_members (events fuel) parent visited r) as [rest|x]; cbn [bind_res]; [|reflexivity].
      unfold add_locations. now rewrite fold_left_app.
  - rewrite IHr. cbn [bind_res]. destruct (events_members (events fuel) parent visited r) as [rest|x]; cbn [bind_res]; [|reflexivity].
    unfold add_locations. rewrite fold_left_app. now destruct (is_nil (snd (qualified h v))).
Qed.

(** ** What the events are *)
Inductive leads : list O -> O -> path -> O -> Prop :=
| leads_name visited ns name v :
    In (name, v) (members h ns) -> (is_type h v = true -> ~ In v visited) -> leads visited ns [name] v
| leads_class visited ns name c p v :
    In (name, c) (members h ns) -> is_type h c = true -> ~ In c visited -> leads (c :: visited) c p v ->
    leads visited ns (name :: p) v.

Lemma events_iff fuel ns parent visited es : events fuel ns parent visited = Ok es ->
  forall q p, In (q, p) es <-> exists s v, p = parent ++ s /\ leads visited ns s v /\ indexed h v q.
Proof.
  revert ns parent visited es. induction fuel as [|fuel IH]; intros ns parent visited es E q p; [discriminate|].
  cbn [events] in E.
  enough (G : In (q, p) es <-> exists name v, In (name, v) (members h ns) /\
            ((p = parent ++ [name] /\ (is_type h v = true -> ~ In v visited) /\ indexed h v q)
             \/ (is_type h v = true /\ ~ In v visited /\ exists s w, p = parent ++ name :: s /\ leads (v :: visited) v s w /\ indexed h w q))).
  { rewrite G. split.
    - intros (name & v & I & [(-> & N & Q)|(T & N & s & w & -> & L & Q)]).
      + exists [name], v. split; [reflexivity|]. split; [now constructor|exact Q].
      + exists (name :: s), w. split; [reflexivity|]. split; [econstructor; eauto|exact Q].
    - intros (s & w & -> & L & Q). inv L.
      + exists name, w. split; [assumption|]. left. auto.
      + exists name, c. split; [assumption|]. right. split; [assumption|]. split; [assumption|]. eauto. }
  revert es E. generalize (members h ns). intros items. induction items as [|[name v] r IHr]; intros es E.
  { cbn in E. injection E as <-. split; [intros []|intros (n & v & [] & _)]. }
  cbn [events_members] in E.
  match type of E with bind_res ?y _ = _ => destruct y as [here|x] eqn:Ehere; [|discriminate] end. cbn [bind_res] in E.
  destruct (events_members (events fuel) parent visited r) as [rest|x] eqn:Er; [|discriminate]. cbn [bind_res] in E.
  injection E as <-. rewrite in_app_iff, (IHr rest eq_refl).
  assert (Hhere : In (q, p) here <->
            ((p = parent ++ [name] /\ (is_type h v = true -> ~ In v visited) /\ indexed h v q)
             \/ (is_type h v = true /\ ~ In v visited /\ exists s w, p = parent ++ name :: s /\ leads (v :: visited) v s w /\ indexed h w q))).
  { destruct (is_type h v) eqn:T.
    - destruct (mem v visited) eqn:M.
      + injection Ehere as <-. apply mem_In in M. split; [intros []|intros [(_ & N & _)|(_ & N & _)]; [now specialize (N eq_refl)|easy]].
      + apply mem_not_In in M. destruct (events fuel v (parent ++ [name]) (v :: visited)) as [es|x] eqn:Ev; [|discriminate].
        cbn [bind_res] in Ehere. injection Ehere as <-. cbn [In]. rewrite (IH _ _ _ _ Ev). split.
        * intros [[= <- <-]|(s & w & -> & L & Q)].
          -- left. split; [reflexivity|]. split; [auto|]. split; [reflexivity|]. left. now apply is_type_class.
          -- right. split; [reflexivity|]. split; [exact M|]. exists s, w. split; [now rewrite <- app_assoc|]. auto.
        * intros [(-> & _ & (Q & _))|(_ & _ & s & w & -> & L & Q)].
          -- left. now rewrite <- Q.
          -- right. exists s, w. split; [now rewrite <- app_assoc|]. auto.
    - injection Ehere as <-. destruct (is_nil (snd (qualified h v))) eqn:Nq.
      + apply is_nil_true in Nq. split; [intros []|]. intros [(_ & _ & (Q & C))|(F & _)]; [|discriminate].
        unfold qualified in Nq. rewrite Q in Nq. destruct C as [C|C]; [|easy]. apply is_type_class in C. congruence.
      + split.
        * intros [[= <- <-]|[]]. left. split; [reflexivity|]. split; [discriminate|]. split; [reflexivity|]. right.
          intros E0. rewrite E0 in Nq. discriminate.
        * intros [(-> & _ & (Q & _))|(F & _)]; [|discriminate]. left. unfold qualified. now rewrite Q. }
  rewrite Hhere. split.
  - intros [D|(n & w & I & D)]; [exists name, v; split; [now left|exact D]|exists n, w; split; [now right|exact D]].
  - intros (n & w & [[= <- <-]|I] & D); [now left|right; eauto].
Qed.

(** [leads] is the specification's [reaches]. *)
Lemma leads_walk visited ns p v : leads visited ns p v <->
  exists classes, walk h ns p (classes ++ [v]) /\ Forall (is_class h) classes /\ NoDup classes
                  /\ (is_class h v -> ~ In v classes /\ ~ In v visited) /\ (forall c, In c classes -> ~ In c visited).
Proof.
  split.
  - induction 1 as [visited ns name v I N|visited ns name c p v I T N L (cs & W & F & D & Nv & Nc)].
    + exists []. split; [econstructor; [exact I|constructor]|]. split; [constructor|]. split; [constructor|]. split; [|intros c []].
      intros C. split; [intros []|]. apply N. now apply is_type_class.
    + exists (c :: cs). split; [econstructor; [exact I|exact W]|]. split; [constructor; [now apply is_type_class|exact F]|].
      split; [constructor; [intros Hc; apply (Nc c Hc); now left|exact D]|]. split.
      * intros C. destruct (Nv C) as [A B]. split; [intros [->|Hc]; [apply B; now left|auto]|intros Hv; apply B; now right].
      * intros d [<-|Hd]; [exact N|]. intros Hv. apply (Nc d Hd). now right.
  - intros (cs & W & F & D & Nv & Nc). revert visited ns p W Nv Nc. induction cs as [|c r IH]; intros visited ns p W Nv Nc.
    + inv W. inv H5. constructor; [assumption|]. intros T. apply is_type_class in T. now apply Nv.
    + cbn [app] in W. inv W. inv F. inv D. econstructor; [eassumption|now apply is_type_class|apply Nc; now left|].
      apply IH; auto.
      * intros C. destruct (Nv C) as [A B]. split; [intros Hv; apply A; now right|]. intros [->|Hv]; [apply A; now left|auto].
      * intros d Hd [<-|Hv]; [auto|]. apply (Nc d); [now right|exact Hv].
Qed.
Lemma leads_reaches ns p v : leads [] ns p v <-> reaches h ns p v.
Proof.
  rewrite leads_walk. unfold reaches. split; intros (cs & W & F & D & Nv).
  - exists cs. destruct Nv as [Nv _]. repeat split; auto. intros C. now apply Nv.
  - exists cs. repeat split; auto.
Qed.

(** ** Termination *)
Section Finite.
Variable classes : list O.
Hypothesis finite : forall ns name v, In (name, v) (members h ns) -> is_type h v = true -> In v classes.
Definition unvisited (visited : list O) : nat := length (filter (fun c => negb (mem c visited)) classes).
Lemma unvisited_le (xs : list O) v visited :
  length (filter (fun c => negb (mem c (v :: visited))) xs) <= length (filter (fun c => negb (mem c visited)) xs).
Proof.
  induction xs as [|x r IH]; cbn [filter]; [lia|]. change (mem x (v :: visited)) with ((x == v) || mem x visited).
  destruct (x == v), (mem x visited); cbn [negb orb length]; lia.
Qed.
Lemma unvisited_lt v visited : In v classes -> ~ In v visited -> unvisited (v :: visited) < unvisited visited.
Proof.
  unfold unvisited. intros I N. clear finite. induction classes as [|x r IH]; [easy|]. cbn [filter].
  change (mem x (v :: visited)) with ((x == v) || mem x visited). destruct I as [->|I].
  - rewrite eqb_refl. apply mem_not_In in N. rewrite N. cbn [negb orb length]. pose proof (unvisited_le r v visited). lia.
  - specialize (IH I). destruct (x == v), (mem x visited); cbn [negb orb length]; lia.
Qed.
Lemma events_enough f1 f2 ns parent visited : unvisited visited < f1 -> unvisited visited < f2 ->
  events f1 ns parent visited = events f2 ns parent visited /\ is_ok (events f1 ns parent visited) = true.
Proof.
  revert f2 ns parent visited. induction f1 as [|f1 IH]; intros f2 ns parent visited L1 L2; [lia|]. destruct f2 as [|f2]; [lia|].
  cbn [events]. assert (Sub : forall name v, In (name, v) (members h ns) -> In (name, v) (members h ns)) by auto.
  revert Sub. generalize (members h ns) at 1 3 4 5. intros items Sub.
  induction items as [|[name v] r IHr]; [cbn; auto|]. cbn [events_members].
  destruct IHr as [Er Or]; [intros; apply Sub; now right|]. rewrite <- Er.
  destruct (events_members (events f1) parent visited r) as [rest|x]; [|discriminate].
  destruct (is_type h v) eqn:T; [|split; reflexivity]. destruct (mem v visited) eqn:M; [split; reflexivity|].
  apply mem_not_In in M. assert (C : In v classes) by (eapply finite; [apply Sub; now left|exact T]).
  pose proof (unvisited_lt v visited C M) as L.
  destruct (IH f2 v (parent ++ [name]) (v :: visited)) as [E Ok']; [lia|lia|]. rewrite <- E.
  destruct (events f1 v (parent ++ [name]) (v :: visited)); [split; reflexivity|discriminate].
Qed.
Lemma unvisited_all : unvisited [] = length classes.
Proof.
  clear finite. unfold unvisited. induction classes as [|x r IH]; [reflexivity|]. cbn [filter]. change (mem x []) with false.
  cbn [negb length]. now rewrite IH.
Qed.
End Finite.

(** ** No location twice *)
Lemma NoDup_app_iff {A} (xs ys : list A) : NoDup xs -> NoDup ys -> (forall x, In x xs -> ~ In x ys) -> NoDup (xs ++ ys).
Proof.
  intros X Y D. induction X as [|x r N X IH]; [exact Y|]. cbn. constructor.
  - rewrite in_app_iff. intros [I|I]; [auto|]. apply (D x); [now left|exact I].
  - apply IH. intros z Hz. apply D. now right.
Qed.
Lemma events_below fuel ns parent visited es : events fuel ns parent visited = Ok es ->
  forall p, In p (map snd es) -> exists s, s <> [] /\ p = parent ++ s.
Proof.
  intros E p I. apply in_map_iff in I as ([q p'] & <- & I). apply (events_iff _ _ _ _ _ E) in I as (s & v & -> & L & _).
  exists s. split; [|reflexivity]. now inv L.
Qed.
Lemma events_nodup fuel ns parent visited es :
  (forall x, NoDup (map fst (members h x))) -> events fuel ns parent visited = Ok es -> NoDup (map snd es).
Proof.
  intros U. revert ns parent visited es. induction fuel as [|fuel IH]; intros ns parent visited es E; [discriminate|].
  cbn [events] in E. generalize (U ns). revert es E. generalize (members h ns). intros items.
  enough (G : forall es, events_members (events fuel) parent visited items = Ok es -> NoDup (map fst items) ->
                NoDup (map snd es) /\ (forall p, In p (map snd es) -> exists name s, In name (map fst items) /\ p = parent ++ name :: s))
    by (intros es E N; now apply (G es E N)).
  induction items as [|[name v] r IHr]; intros es E N.
  { cbn in E. injection E as <-. split; [constructor|intros p []]. }
  cbn [events_members] in E. cbn [map fst] in N. inv N.
  match type of E with bind_res ?y _ = _ => destruct y as [here|x] eqn:Ehere; [|discriminate] end. cbn [bind_res] in E.
  destruct (events_members (events fuel) parent visited r) as [rest|x] eqn:Er; [|discriminate]. cbn [bind_res] in E.
  injection E as <-. destruct (IHr rest eq_refl H3) as [Nr Br].
  assert (Hh : NoDup (map snd here) /\ forall p, In p (map snd here) -> exists s, p = parent ++ name :: s).
  { destruct (is_type h v).
    - destruct (mem v visited); [injection Ehere as <-; split; [constructor|intros p []]|].
      destruct (events fuel v (parent ++ [name]) (v :: visited)) as [es|x] eqn:Ev; [|discriminate].
      cbn [bind_res] in Ehere. injection Ehere as <-. cbn [map snd]. pose proof (events_below _ _ _ _ _ Ev) as B. split.
      + constructor; [|eapply IH; exact Ev]. intros I. destruct (B _ I) as (s & Ns & E). rewrite <- (app_nil_r (parent ++ [name])) in E at 1.
        apply app_inv_head in E. congruence.
      + intros p [<-|I]; [now exists []|]. destruct (B p I) as (s & _ & ->). exists s. now rewrite <- app_assoc.
    - injection Ehere as <-. destruct (is_nil (snd (qualified h v))); cbn [map snd].
      + split; [constructor|intros p []].
      + split; [constructor; [intros []|constructor]|]. intros p [<-|[]]. now exists []. }
  destruct Hh as [Nh Bh]. rewrite map_app. split.
  - apply NoDup_app_iff; auto. intros p I J. destruct (Bh p I) as [s ->]. destruct (Br _ J) as (n & s' & In' & E).
    apply app_inv_head in E. injection E as <- _. auto.
  - intros p I. apply in_app_iff in I as [I|I].
    + destruct (Bh p I) as [s ->]. exists name, s. split; [now left|reflexivity].
    + destruct (Br p I) as (n & s & J & ->). exists n, s. split; [now right|reflexivity].
Qed.

(** ** Modules *)
Variable import_module : path -> option O.
Definition module_events (fuel : nat) (m : path) : res (list (qualified_path * path)) :=
  match import_module m with None => Ok [] | Some o => events fuel o [] [] end.
Lemma index_module_events fuel m paths :
  index_module_path h import_module fuel m paths = let* es := module_events fuel m in Ok (add_locations m es paths).
Proof. unfold index_module_path, module_events. destruct (import_module m); [apply index_events|reflexivity]. Qed.

Lemma index_modules_well_formed fuel ms paths result :
  well_formed paths -> index_modules h import_module fuel ms paths = Ok result -> well_formed result.
Proof.
  revert paths. induction ms as [|m r IH]; intros paths W; cbn [index_modules]; [now intros [= <-]|].
  rewrite index_module_events. destruct (module_events fuel m) as [es|x]; [|discriminate]. apply IH. now apply well_formed_adds.
Qed.

Lemma index_modules_lookup fuel ms paths result : index_modules h import_module fuel ms paths = Ok result ->
  forall q l, In l (lookup q result) <-> In l (lookup q paths)
    \/ exists m p es, In m ms /\ module_events fuel m = Ok es /\ In (q, p) es /\ l = (m, p).
Proof.
  revert paths. induction ms as [|m r IH]; intros paths; cbn [index_modules].
  - intros [= <-] q l. split; [now left|]. intros [I|(m & p & es & [] & _)]. exact I.
  - rewrite index_module_events. destruct (module_events fuel m) as [es|x] eqn:E; [|discriminate]. cbn [bind_res].
    intros R q l. rewrite (IH _ R q l), lookup_adds, in_app_iff, in_map_iff.
    assert (A : (exists x, (m, snd x) = l /\ In x (filter (fun e => fst e == q) es)) <-> exists p, In (q, p) es /\ l = (m, p)).
    { split.
      - intros ([q' p] & <- & I). apply filter_In in I as [I Q]. apply eqb_to_eq in Q. cbn in Q. subst q'. now exists p.
      - intros (p & I & ->). exists (q, p). split; [reflexivity|]. apply filter_In. split; [exact I|apply eqb_refl]. }
    rewrite A. split.
    + intros [[I|(p & I & ->)]|(m' & p & es' & J & E' & I & ->)]; [now left| |].
      * right. exists m, p, es. split; [now left|]. auto.
      * right. exists m', p, es'. split; [now right|]. auto.
    + intros [I|(m' & p & es' & [<-|J] & E' & I & ->)]; [auto| |].
      * rewrite E in E'. injection E' as <-. left. right. eauto.
      * right. eauto 7.
Qed.
Lemma index_modules_nodup fuel ms paths result : (forall x, NoDup (map fst (members h x))) -> NoDup ms ->
  index_modules h import_module fuel ms paths = Ok result ->
  forall q, NoDup (lookup q paths) -> (forall m p, In m ms -> ~ In (m, p) (lookup q paths)) -> NoDup (lookup q result).
Proof.
  intros U. revert paths. induction ms as [|m r IH]; intros paths N; cbn [index_modules]; [now intros [= <-]|].
  inv N. rewrite index_module_events. destruct (module_events fuel m) as [es|x] eqn:E; [|discriminate]. cbn [bind_res].
  intros R q Nq D. apply (IH _ H3 R).
  - rewrite lookup_adds. apply NoDup_app_iff; [exact Nq| |].
    + assert (Ne : NoDup (map snd es)).
      { unfold module_events in E. destruct (import_module m); [eapply events_nodup; eauto|injection E as <-; constructor]. }
      clear -Ne. induction es as [|[q' p] s IHs]; cbn; [constructor|]. cbn in Ne. inv Ne. destruct (q' == q); [|auto].
      cbn. constructor; [|auto]. intros I. apply in_map_iff in I as ([q2 p2] & [= ->] & I). apply filter_In in I as [I _].
      apply H1. now apply (in_map snd) in I.
    + intros l I J. apply in_map_iff in J as ([q' p] & <- & J). apply (D m p); [now left|exact I].
  - intros m' p J. rewrite lookup_adds, in_app_iff, in_map_iff. intros [I|([q' p'] & [= -> ->] & _)]; [|auto].
    apply (D m' p); [now right|exact I].
Qed.
Lemma index_modules_ok classes fuel ms paths :
  (forall ns name v, In (name, v) (members h ns) -> is_type h v = true -> In v classes) -> length classes < fuel ->
  exists result, index_modules h import_module fuel ms paths = Ok result.
Proof.
  intros F L. revert paths. induction ms as [|m r IH]; intros paths; cbn [index_modules]; [eauto|].
  rewrite index_module_events. unfold module_events. destruct (import_module m) as [o|]; [|cbn; apply IH].
  destruct (events_enough classes F fuel fuel o [] []) as [_ Ok']; try (rewrite unvisited_all; lia).
  destruct (events fuel o [] []); [cbn; apply IH|discriminate].
Qed.
Lemma index_modules_same classes f1 f2 ms paths :
  (forall ns name v, In (name, v) (members h ns) -> is_type h v = true -> In v classes) ->
  length classes < f1 -> length classes < f2 ->
  index_modules h import_module f1 ms paths = index_modules h import_module f2 ms paths.
Proof.
  intros F L1 L2. revert paths. induction ms as [|m r IH]; intros paths; cbn [index_modules]; [reflexivity|].
  rewrite !index_module_events. unfold module_events. destruct (import_module m) as [o|]; [|cbn; apply IH].
  destruct (events_enough classes F f1 f2 o [] []) as [-> _]; try (rewrite unvisited_all; lia).
  destruct (events f2 o [] []); [cbn; apply IH|reflexivity].
Qed.
End Index.

(** ** The filter *)
Section Supported.
Variable contains : path -> path -> path -> res bool.
Definition is_supported (l : qualified_path) : bool :=
  match contains (fst l) [] (snd l) with Ok b => b | Err _ => false end.
Lemma supported_locations_spec ls result :
  supported_locations contains ls = Ok result <->
  (forall l, In l ls -> is_ok (contains (fst l) [] (snd l)) = true) /\ result = filter is_supported ls.
Proof.
  revert result. induction ls as [|[m o] r IH]; intros result; cbn [supported_locations filter].
  - split; [intros [= <-]; split; [intros l []|reflexivity]|now intros [_ ->]].
  - unfold is_supported at 1. cbn [fst snd]. destruct (contains m [] o) as [b|x] eqn:C; cbn [bind_res].
    + destruct (supported_locations contains r) as [rest|x]; cbn [bind_res].
      * destruct (proj1 (IH rest) eq_refl) as [A ->]. split.
        -- intros [= <-]. split; [intros l [<-|I]; [cbn; now rewrite C|auto]|reflexivity].
        -- now intros [_ ->].
      * split; [discriminate|]. intros [A ->].
        assert (F : @Err (list qualified_path) x = Ok (filter is_supported r))
          by (apply IH; split; [|reflexivity]; intros l I; apply A; now right). discriminate.
    + split; [discriminate|]. intros [A _]. specialize (A (m, o) (or_introl eq_refl)). cbn in A. now rewrite C in A.
Qed.

Definition kept_objects (items : list (path * list qualified_path)) : dict path (list qualified_path) :=
  filter (fun x => negb (is_nil (snd x))) (map (fun x => (fst x, filter is_supported (snd x))) items).
Definition kept_modules (items : list (path * dict path (list qualified_path))) : index :=
  filter (fun x => negb (is_nil (snd x))) (map (fun x => (fst x, kept_objects (snd x))) items).

Lemma supported_objects_spec items result found :
  NoDup (dkeys result ++ map fst items) -> supported_objects contains items result = Ok found ->
  found = result ++ kept_objects items.
Proof.
  revert result. induction items as [|[o ls] r IH]; intros result N; cbn [supported_objects].
  - intros [= <-]. unfold kept_objects. cbn. now rewrite app_nil_r.
  - destruct (supported_locations contains ls) as [s|x] eqn:S; [|discriminate]. cbn [bind_res].
    apply supported_locations_spec in S as [_ ->]. intros E. unfold kept_objects. cbn [map filter fst snd].
    change (filter _ (map _ r)) with (kept_objects r). cbn [map fst] in N.
    assert (No : ~ In o (dkeys result)) by (intros I; apply NoDup_remove_2 in N; apply N; apply in_app_iff; now left).
    destruct (filter is_supported ls) as [|l k] eqn:F; cbn [is_nil negb] in E |- *.
    + apply (IH result); [now apply NoDup_remove_1 in N|exact E].
    + apply (IH (dset o (l :: k) result)) in E; [|rewrite (dset_new o _ _ No); unfold dkeys; rewrite map_app; cbn;
        rewrite <- app_assoc; exact N].
      rewrite E, (dset_new o _ _ No), <- app_assoc. reflexivity.
Qed.
Lemma supported_modules_spec items result found :
  (forall m os, In (m, os) items -> NoDup (dkeys os)) ->
  NoDup (dkeys result ++ map fst items) -> supported_modules contains items result = Ok found ->
  found = result ++ kept_modules items.
Proof.
  revert result. induction items as [|[m os] r IH]; intros result U N; cbn [supported_modules].
  - intros [= <-]. unfold kept_modules. cbn. now rewrite app_nil_r.
  - destruct (supported_objects contains os []) as [s|x] eqn:S; [|discriminate]. cbn [bind_res].
    apply supported_objects_spec in S; [|apply (U m os); now left]. cbn [app] in S. subst s.
    intros E. unfold kept_modules. cbn [map filter fst snd]. change (filter _ (map _ r)) with (kept_modules r). cbn [map fst] in N.
    assert (No : ~ In m (dkeys result)) by (intros I; apply NoDup_remove_2 in N; apply N; apply in_app_iff; now left).
    assert (U' : forall m os, In (m, os) r -> NoDup (dkeys os)) by (intros m' os' I; apply (U m' os'); now right).
    destruct (kept_objects os) as [|l k] eqn:F; cbn [is_nil negb] in E |- *.
    + apply (IH result U'); [now apply NoDup_remove_1 in N|exact E].
    + apply (IH (dset m (l :: k) result) U') in E; [|rewrite (dset_new m _ _ No); unfold dkeys; rewrite map_app; cbn;
        rewrite <- app_assoc; exact N].
      rewrite E, (dset_new m _ _ No), <- app_assoc. reflexivity.
Qed.

(** Lookups in what is kept; nothing kept is the same as no entry. *)
Lemma dget_or_kept {A B} (f : list A -> list B) (d : dict path (list A)) k : f [] = [] -> NoDup (dkeys d) ->
  dget_or k [] (filter (fun x => negb (is_nil (snd x))) (map (fun x => (fst x, f (snd x))) d)) = f (dget_or k [] d).
Proof.
  intros F0 N. unfold dget_or. induction d as [|[k' a] r IH]; [symmetry; exact F0|]. cbn [map filter fst snd]. cbn [dkeys map fst] in N. inv N.
  specialize (IH H2). rewrite dget_cons. destruct (eqb_reflect k k') as [->|Nk].
  - destruct (f a) as [|b s] eqn:E; cbn [is_nil negb].
    + replace (dget k' r) with (@None (list A)) in IH by (symmetry; now apply dget_None). now rewrite IH.
    + rewrite dget_cons, eqb_refl. reflexivity.
  - destruct (f a) as [|b s] eqn:E; cbn [is_nil negb]; [exact IH|]. rewrite dget_cons.
    replace (k == k') with false by (symmetry; now apply eqb_neq). exact IH.
Qed.
Lemma supported_lookup paths found : NoDup (dkeys paths) -> (forall m os, In (m, os) paths -> NoDup (dkeys os)) ->
  to_supported_qualified_paths contains paths = Ok found ->
  forall q, lookup q found = filter is_supported (lookup q paths).
Proof.
  intros N U E q. apply supported_modules_spec in E; [|exact U|exact N]. cbn [app] in E. subst found.
  unfold lookup, kept_modules. pose proof (dget_or_kept kept_objects paths (fst q) eq_refl N) as K.
  match goal with |- dget_or _ _ ?x = _ => replace x with (kept_objects (dget_or (fst q) [] paths)) by (symmetry; exact K) end.
  assert (G : forall k, NoDup (dkeys (dget_or k [] paths))).
  { intros k. unfold dget_or. match goal with |- context [match ?x with _ => _ end] => destruct x as [d|] eqn:D end; [|constructor].
    apply (U k). now apply dget_Some_In. }
  exact (dget_or_kept (filter is_supported) (dget_or (fst q) [] paths) (snd q) eq_refl (G (fst q))).
Qed.
Lemma supported_not_empty paths found : NoDup (dkeys paths) -> (forall m os, In (m, os) paths -> NoDup (dkeys os)) ->
  to_supported_qualified_paths contains paths = Ok found ->
  forall m os, In (m, os) found -> os <> [] /\ forall o ls, In (o, ls) os -> ls <> [].
Proof.
  intros N U E m os I. apply supported_modules_spec in E; [|exact U|exact N]. cbn [app] in E. subst found.
  unfold kept_modules in I. apply filter_In in I as [I Ne]. split; [intros ->; discriminate|].
  apply in_map_iff in I as ([m' os'] & [= -> <-] & _). intros o ls J. unfold kept_objects in J. apply filter_In in J as [_ J].
  intros ->. discriminate.
Qed.
(** It fails exactly when looking up one of the locations does. *)
Lemma supported_objects_ok items result :
  is_ok (supported_objects contains items result) = true <->
  (forall o ls l, In (o, ls) items -> In l ls -> is_ok (contains (fst l) [] (snd l)) = true).
Proof.
  revert result. induction items as [|[o ls] r IH]; intros result; cbn [supported_objects].
  - split; [intros _ o ls l []|reflexivity].
  - destruct (supported_locations contains ls) as [s|x] eqn:S; cbn [bind_res].
    + apply supported_locations_spec in S as [A ->]. rewrite IH. split; intros G o' ls' l.
      * intros [[= <- <-]|I]; [apply A|now apply (G o')].
      * intros I. apply (G o'). now right.
    + split; [discriminate|]. intros G.
      assert (F : @Err (list qualified_path) x = Ok (filter is_supported ls))
        by (rewrite <- S; apply supported_locations_spec; split; [|reflexivity]; intros l; apply (G o); now left). discriminate.
Qed.
Lemma supported_modules_ok items result :
  is_ok (supported_modules contains items result) = true <->
  (forall m os o ls l, In (m, os) items -> In (o, ls) os -> In l ls -> is_ok (contains (fst l) [] (snd l)) = true).
Proof.
  revert result. induction items as [|[m os] r IH]; intros result; cbn [supported_modules].
  - split; [intros _ m os o ls l []|reflexivity].
  - pose proof (supported_objects_ok os []) as S. destruct (supported_objects contains os []) as [s|x]; cbn [bind_res].
    + rewrite IH. split; intros G m' os' o ls l.
      * intros [[= <- <-]|I]; [now apply S|now apply (G m')].
      * intros I. apply (G m'). now right.
    + split; [discriminate|]. intros G. apply S. intros o ls l. apply (G m). now left.
Qed.
End Supported.
