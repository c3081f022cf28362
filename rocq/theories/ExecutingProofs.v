(** Proofs about executed statements (Executing.v). *)
From Verif Require Import Base Ast Conversion Catalog Scoping Stubs Evaluation LazyText Executing SpecExecuting SpecEvaluation.
From Verif Require StubsProofs.

Lemma dget_cons {A} (n k : pystr) (v : A) (d : dict pystr A) : dget n ((k, v) :: d) = if n == k then Some v else dget n d.
Proof. reflexivity. Qed.
Lemma dget_app {A} n (d d' : dict pystr A) : dget n (d ++ d') = match dget n d with Some v => Some v | None => dget n d' end.
Proof. induction d as [|[k v] d IH]; [reflexivity|]. cbn [app]. rewrite !dget_cons. destruct (n == k); [reflexivity|exact IH]. Qed.
Lemma dset_cons {A} (n k : pystr) (v w : A) (d : dict pystr A) :
  dset n v ((k, w) :: d) = if n == k then (k, v) :: d else (k, w) :: dset n v d.
Proof. reflexivity. Qed.
Lemma dset_new {A} (n : pystr) (v : A) (d : dict pystr A) : ~ In n (dkeys d) -> dset n v d = d ++ [(n, v)].
Proof.
  induction d as [|[k w] d IH]; intros N; [reflexivity|]. rewrite dset_cons. cbn [app].
  destruct (eqb_reflect n k) as [->|]; [destruct N; now left|]. rewrite IH; [reflexivity|]. intros I. apply N. now right.
Qed.
Lemma dset_old {A} (n : pystr) (v : A) (d d' : dict pystr A) : NoDup (dkeys (d ++ (n, v) :: d')) -> dset n v (d ++ (n, v) :: d') = d ++ (n, v) :: d'.
Proof.
  induction d as [|[k w] d IH]; cbn [app]; intros N; rewrite dset_cons; [now rewrite eqb_refl|].
  unfold dkeys in N. cbn [map fst] in N. inversion_clear N as [|? ? N1 N2]. destruct (eqb_reflect n k) as [->|].
  - destruct N1. rewrite map_app, in_app_iff. right. now left.
  - now rewrite IH.
Qed.
Lemma update_all {A} (l : list (pystr * A)) : forall d pre,
  d = pre ++ l -> NoDup (dkeys d) -> update d l = d.
Proof.
  unfold update. induction l as [|[k v] l IH]; intros d pre E N; [reflexivity|]. cbn [fold_left fst snd].
  rewrite E, dset_old by now rewrite <- E. rewrite <- E. apply (IH _ (pre ++ [(k, v)])); [|exact N]. now rewrite E, <- app_assoc.
Qed.
Lemma update_app {A} (d d' : list (pystr * A)) : NoDup (dkeys (d ++ d')) -> update d (d ++ d') = d ++ d'.
Proof.
  intros N. unfold update. rewrite fold_left_app.
  assert (E : fold_left (fun ns kv => dset (fst kv) (snd kv) ns) d d = d).
  { apply (update_all d d []); [reflexivity|]. unfold dkeys in *. rewrite map_app in N. clear - N. revert N. generalize (map fst d). intros l. induction l as [|x l IH]; cbn [app]; intros N; [constructor|]. inversion_clear N as [|? ? N1 N2]. constructor; [intros I; apply N1, in_or_app; now left|now apply IH]. }
  rewrite E. clear E. revert d N. induction d' as [|[k v] d' IH]; intros d N; [now rewrite app_nil_r|]. cbn [fold_left fst snd].
  rewrite dset_new.
  - rewrite (IH (d ++ [(k, v)])); rewrite <- app_assoc; [reflexivity|exact N].
  - intros I. unfold dkeys in N, I. rewrite map_app in N. cbn [map fst] in N. apply NoDup_remove_2 in N. apply N. rewrite in_app_iff. now left.
Qed.
Lemma filter_none {A} n (d : dict pystr A) : ~ In n (dkeys d) -> filter (fun kv => negb (fst kv == n)) d = d.
Proof.
  induction d as [|[k v] d IH]; intros N; [reflexivity|]. cbn [filter fst].
  destruct (eqb_reflect k n) as [->|]; [destruct N; now left|]. cbn [negb]. rewrite IH; [reflexivity|]. intros I. apply N. now right.
Qed.
Lemma dget_none_iff {A} n (d : dict pystr A) : dget n d = None <-> ~ In n (dkeys d).
Proof. rewrite <- dmem_not_In. unfold dmem. now destruct (dget n d). Qed.

Section Proofs.
Context {V : Type}.
Variable py : python V.
Variable machine : interpreter V.
Notation value_in := (value_in py machine).
Notation has_value := (has_value py machine).
Notation have_values := (have_values py machine).
Notation have_items := (have_items py machine).

(** ** Expressions *)
Lemma map_m_have globals es :
  Forall (fun e => forall v, value_in globals e = Ok v <-> has_value (look_up machine globals) e v) es ->
  forall vs, map_m (value_in globals) es = Ok vs <-> have_values (look_up machine globals) es vs.
Proof.
  induction 1 as [|e es H _ IH]; intros vs; cbn [map_m].
  - split; [intros [= <-]; constructor|intros X; now inversion X].
  - split.
    + intros E. destruct (value_in globals e) as [v|] eqn:Ev; [|discriminate]. cbn [bind_res] in E.
      destruct (map_m (value_in globals) es) as [ws|] eqn:Es; [|discriminate]. cbn [bind_res] in E. injection E as <-.
      constructor; [now apply H|now apply IH].
    + intros X. inversion X as [|? ? v ws Hv Hs]; subst. apply H in Hv. apply IH in Hs. rewrite Hv. cbn [bind_res]. now rewrite Hs.
Qed.
Lemma keywords_have globals (ks : list (option pystr * expr)) :
  Forall (fun k => forall v, value_in globals (snd k) = Ok v <-> has_value (look_up machine globals) (snd k) v) ks ->
  forall kvs, map_m (fun k => let* v := value_in globals (snd k) in Ok (fst k, v)) ks = Ok kvs
    <-> exists ws, have_values (look_up machine globals) (map snd ks) ws /\ kvs = combine (map fst ks) ws.
Proof.
  induction 1 as [|[n e] ks H _ IH]; intros kvs; cbn [map_m map fst snd].
  - split; [intros [= <-]; exists []; now split; [constructor|]|]. intros (ws & X & ->). now inversion X.
  - cbn [snd] in H. split.
    + intros E. destruct (value_in globals e) as [v|] eqn:Ev; [|discriminate]. cbn [bind_res] in E.
      match type of E with (let* ys := ?x in _) = _ => destruct x as [ws|] eqn:Es; [|discriminate] end. cbn [bind_res] in E. injection E as <-.
      destruct (proj1 (IH ws) eq_refl) as (us & Hu & ->). exists (v :: us). split; [constructor; [now apply H|exact Hu]|reflexivity].
    + intros (ws & X & ->). inversion X as [|? ? v us Hv Hs]; subst. apply H in Hv. rewrite Hv. cbn [bind_res].
      assert (E := proj2 (IH _) (ex_intro _ us (conj Hs eq_refl))). rewrite E. reflexivity.
Qed.
Lemma items_have globals (items : list (option expr * expr)) :
  Forall (fun i => (forall k, fst i = Some k -> forall v, value_in globals k = Ok v <-> has_value (look_up machine globals) k v)
                   /\ forall v, value_in globals (snd i) = Ok v <-> has_value (look_up machine globals) (snd i) v) items ->
  forall kvs, map_m (fun i => let* k := match fst i with
                                        | Some k => let* k := value_in globals k in Ok (Some k)
                                        | None => Ok None
                                        end in
                              let* v := value_in globals (snd i) in Ok (k, v)) items = Ok kvs
    <-> have_items (look_up machine globals) items kvs.
Proof.
  induction 1 as [|[[k|] e] items [Hk H] _ IH]; intros kvs; cbn [map_m fst snd].
  - split; [intros [= <-]; constructor|]. intros X. now inversion X.
  - cbn [fst snd] in H, Hk. specialize (Hk k eq_refl). split.
    + intros E. destruct (value_in globals k) as [w|] eqn:Ew; [|discriminate]. cbn [bind_res] in E.
      destruct (value_in globals e) as [v|] eqn:Ev; [|discriminate]. cbn [bind_res] in E.
      match type of E with (let* ys := ?x in _) = _ => destruct x as [ws|] eqn:Es; [|discriminate] end. cbn [bind_res] in E. injection E as <-.
      constructor; [now apply Hk|now apply H|now apply IH].
    + intros X. inversion X as [|? ? ? w v ws Hw Hv Hs|]; subst. apply Hk in Hw. apply H in Hv. rewrite Hw. cbn [bind_res]. rewrite Hv. cbn [bind_res].
      apply IH in Hs. now rewrite Hs.
  - cbn [fst snd] in H, Hk. split.
    + intros E. cbn [bind_res] in E. destruct (value_in globals e) as [v|] eqn:Ev; [|discriminate]. cbn [bind_res] in E.
      match type of E with (let* ys := ?x in _) = _ => destruct x as [ws|] eqn:Es; [|discriminate] end. cbn [bind_res] in E. injection E as <-.
      constructor; [now apply H|now apply IH].
    + intros X. inversion X as [| |? ? v ws Hv Hs]; subst. apply H in Hv. cbn [bind_res]. rewrite Hv. cbn [bind_res].
      apply IH in Hs. now rewrite Hs.
Qed.
Lemma value_in_has globals e : forall v, value_in globals e = Ok v <-> has_value (look_up machine globals) e v.
Proof.
  induction e as [n|e a IH|e i IHe IHi|es IH|es IH|items IH|f es ks IHf IHes IHks|l o r IHl IHr|o e IH|k|es _] using expr_ind'; intros x; cbn [value_in].
  - split.
    + destruct (look_up machine globals n) as [v|] eqn:E; [|discriminate]. intros [= <-]. now constructor.
    + intros X. inversion X as [? ? E| | | | | | | | | |]; subst. now rewrite E.
  - split.
    + intros E. destruct (value_in globals e) as [v|] eqn:Ev; [|discriminate]. econstructor; [now apply IH|exact E].
    + intros X. inversion X as [| |? ? v ? Hv E| | | | | | | |]; subst. apply IH in Hv. now rewrite Hv.
  - split.
    + intros E. destruct (value_in globals e) as [v|] eqn:Ev; [|discriminate]. cbn [bind_res] in E.
      destruct (value_in globals i) as [w|] eqn:Ew; [|discriminate]. econstructor; [now apply IHe|now apply IHi|exact E].
    + intros X. inversion X as [| | |? ? v w ? Hv Hw E| | | | | | |]; subst. apply IHe in Hv. apply IHi in Hw. rewrite Hv. cbn [bind_res]. now rewrite Hw.
  - split.
    + intros E. destruct (map_m (value_in globals) es) as [vs|] eqn:Es; [|discriminate]. injection E as <-. constructor. now apply map_m_have.
    + intros X. inversion X as [| | | |? vs H| | | | | |]; subst. now rewrite (proj2 (map_m_have _ _ IH _) H).
  - split.
    + intros E. destruct (map_m (value_in globals) es) as [vs|] eqn:Es; [|discriminate]. injection E as <-. constructor. now apply map_m_have.
    + intros X. inversion X as [| | | | |? vs H| | | | |]; subst. now rewrite (proj2 (map_m_have _ _ IH _) H).
  - split.
    + intros E. match type of E with (let* y := ?x in _) = _ => destruct x as [kvs|] eqn:Ek; [|discriminate] end. cbn [bind_res] in E.
      apply (items_have _ _ IH) in Ek. now apply (hv_dict py machine _ items kvs x).
    + intros X. inversion X as [| | | | | |? ws ? Hi E| | | |]; subst. now rewrite (proj2 (items_have _ _ IH _) Hi).
  - split.
    + intros E. destruct (value_in globals f) as [g|] eqn:Ef; [|discriminate]. cbn [bind_res] in E.
      destruct (map_m (value_in globals) es) as [vs|] eqn:Es; [|discriminate]. cbn [bind_res] in E.
      match type of E with (let* y := ?x in _) = _ => destruct x as [kvs|] eqn:Ek; [|discriminate] end. cbn [bind_res] in E.
      apply (keywords_have _ _ IHks) in Ek as (ws & Hw & ->). apply (hv_call py machine _ f es ks g vs ws x); [now apply IHf|now apply map_m_have|exact Hw|exact E].
    + intros X. inversion X as [| | | | | | |? ? ? g vs ws ? Hf Hs Hk E| | |]; subst. apply IHf in Hf. rewrite Hf. cbn [bind_res].
      rewrite (proj2 (map_m_have _ _ IHes _) Hs). cbn [bind_res].
      now rewrite (proj2 (keywords_have _ _ IHks _) (ex_intro _ ws (conj Hk eq_refl))).
  - split.
    + intros E. destruct (value_in globals l) as [v|] eqn:Ev; [|discriminate]. cbn [bind_res] in E.
      destruct (value_in globals r) as [w|] eqn:Ew; [|discriminate]. econstructor; [now apply IHl|now apply IHr|exact E].
    + intros X. inversion X as [| | | | | | | |? ? ? v w ? Hv Hw E| |]; subst. apply IHl in Hv. apply IHr in Hw. rewrite Hv. cbn [bind_res]. now rewrite Hw.
  - split.
    + intros E. destruct (value_in globals e) as [v|] eqn:Ev; [|discriminate]. econstructor; [now apply IH|exact E].
    + intros X. inversion X as [| | | | | | | | |? ? v ? Hv E|]; subst. apply IH in Hv. now rewrite Hv.
  - split; [intros [= <-]; constructor|intros X; now inversion X].
  - split; [now constructor|intros X; now inversion X].
Qed.
Lemma values_in globals es vs : map_m (value_in globals) es = Ok vs <-> have_values (look_up machine globals) es vs.
Proof. apply map_m_have. apply Forall_forall. intros e _. apply value_in_has. Qed.

(** Only the names that occur matter. *)
Lemma has_value_local named named' e :
  (forall n, In n (names_in e) -> named n = named' n) -> forall v, has_value named e v -> has_value named' e v.
Proof.
  assert (all : forall es, Forall (fun e => (forall n, In n (names_in e) -> named n = named' n) ->
                  forall v, has_value named e v -> has_value named' e v) es ->
                (forall n, In n (flat_map names_in es) -> named n = named' n) ->
                forall vs, have_values named es vs -> have_values named' es vs).
  { induction 1 as [|x es H _ IH]; intros N vs X; inversion X; subst; constructor.
    - apply H; [|assumption]. intros n I. apply N. cbn [flat_map]. apply in_or_app. now left.
    - apply IH; [|assumption]. intros n I. apply N. cbn [flat_map]. apply in_or_app. now right. }
  induction e as [n|e a IH|e i IHe IHi|es IH|es IH|items IH|f es ks IHf IHes IHks|l o r IHl IHr|o e IH|k|es _] using expr_ind';
    cbn [names_in]; intros N v X; inversion X; subst.
  - constructor. rewrite <- N; [assumption|now left].
  - econstructor; [apply IH|]; eassumption.
  - econstructor; [apply IHe; [intros; apply N, in_or_app; now left|]|apply IHi; [intros; apply N, in_or_app; now right|]|]; eassumption.
  - constructor. now apply all.
  - constructor. now apply all.
  - econstructor; [|eassumption]. match goal with H : SpecExecuting.have_items _ _ _ _ _ |- _ => revert N H end. clear - IH.
    revert ws. induction IH as [|[k e] items [Hk He] _ IH]; intros ws N X; inversion X; subst; cbn [flat_map fst snd] in *; constructor.
    + apply Hk; [reflexivity| |assumption]. intros n I. apply N, in_or_app. left. apply in_or_app. now left.
    + apply He; [|assumption]. intros n I. apply N, in_or_app. left. apply in_or_app. now right.
    + apply IH; [|assumption]. intros n I. apply N, in_or_app. now right.
    + apply He; [|assumption]. intros n I. apply N, in_or_app. left. exact I.
    + apply IH; [|assumption]. intros n I. apply N, in_or_app. now right.
  - econstructor; [apply IHf|apply all|apply all|]; try eassumption.
    + intros; apply N, in_or_app; now left.
    + intros; apply N, in_or_app; right; apply in_or_app; now left.
    + clear - IHks. induction IHks; constructor; assumption.
    + intros m I. apply N, in_or_app. right. apply in_or_app. right. rewrite in_flat_map in I |- *.
      destruct I as (x & Ix & I). apply in_map_iff in Ix as ([k y] & <- & Ix). now exists (k, y).
  - econstructor; [apply IHl; [intros; apply N, in_or_app; now left|]|apply IHr; [intros; apply N, in_or_app; now right|]|]; eassumption.
  - econstructor; [apply IH|]; eassumption.
  - constructor.
  - constructor. match goal with H : other _ _ _ = _ |- _ => rewrite <- H end. f_equal. apply map_ext_in. intros n I. now rewrite N.
Qed.
Lemma have_values_local named named' es :
  (forall e n, In e es -> In n (names_in e) -> named n = named' n) -> forall vs, have_values named es vs -> have_values named' es vs.
Proof.
  induction es as [|e es IH]; intros N vs X; inversion X; subst; constructor.
  - eapply has_value_local; [|eassumption]. intros n. apply N. now left.
  - apply IH; [|assumption]. intros e' n I. apply N. now right.
Qed.

(** ** Executing *)
Lemma not_builtins ns : ~ In builtins_name (dkeys ns) ->
  (if dmem builtins_name ns then ns else dset builtins_name (builtins_namespace machine) ns) = ns ++ [(builtins_name, builtins_namespace machine)].
Proof. intros N. rewrite (proj2 (dmem_not_In _ _) N). now apply dset_new. Qed.
Lemma look_up_seen ns n : ~ In builtins_name (dkeys ns) ->
  look_up machine (ns ++ [(builtins_name, builtins_namespace machine)]) n = seen machine ns n.
Proof.
  intros N. unfold look_up, seen. change $"__builtins__" with builtins_name.
  destruct (dget n (ns ++ [(builtins_name, builtins_namespace machine)])); [reflexivity|].
  rewrite dget_app. apply dget_none_iff in N. rewrite N. rewrite dget_cons. now rewrite eqb_refl.
Qed.
Lemma executed_value ns e v : ~ In builtins_name (dkeys ns) ->
  value_in (ns ++ [(builtins_name, builtins_namespace machine)]) e = Ok v <-> has_value (seen machine ns) e v.
Proof.
  intros N. rewrite value_in_has. split; apply has_value_local; intros n _; [|symmetry]; now apply look_up_seen.
Qed.
Lemma executed_values ns es vs : ~ In builtins_name (dkeys ns) ->
  map_m (value_in (ns ++ [(builtins_name, builtins_namespace machine)])) es = Ok vs <-> have_values (seen machine ns) es vs.
Proof.
  intros N. rewrite values_in. split; apply have_values_local; intros e n _ _; [|symmetry]; now apply look_up_seen.
Qed.
Lemma fresh ns (x : pystr) (v : V) : NoDup (dkeys ns) -> ~ In x (dkeys ns) -> NoDup (dkeys (ns ++ [(x, v)])).
Proof.
  intros N I. unfold dkeys in *. rewrite map_app. now apply NoDup_app_single.
Qed.

Lemma condition_value e ns :
  NoDup (dkeys ns) -> ~ In builtins_name (dkeys ns) -> ~ In temporary_name (dkeys ns) ->
  forall v, has_value (seen machine ns) e v ->
    evaluate_condition py machine e ns = (ns ++ [(builtins_name, builtins_namespace machine)], Ok v).
Proof.
  intros D N T v H. unfold evaluate_condition, execute_statement, exec. rewrite (not_builtins ns N). cbn [run_statement].
  rewrite (proj2 (executed_value ns e v N) H). cbn [bind_res].
  assert (T' : ~ In temporary_name (dkeys (ns ++ [(builtins_name, builtins_namespace machine)]))).
  { unfold dkeys in *. rewrite map_app, in_app_iff. cbn [map fst In]. intros [X|[X|[]]]; [tauto|discriminate X]. }
  rewrite (dset_new _ _ _ T'). rewrite <- app_assoc. cbn [app].
  rewrite update_app.
  - unfold pop. rewrite dget_app. rewrite (proj2 (dget_none_iff _ _) T).
    rewrite !dget_cons, eqb_refl. change (temporary_name == builtins_name) with false. cbv iota.
    f_equal. rewrite filter_app, filter_none by assumption. reflexivity.
  - change [(builtins_name, builtins_namespace machine); (temporary_name, v)] with ([(builtins_name, builtins_namespace machine)] ++ [(temporary_name, v)]).
    rewrite app_assoc. apply fresh; [now apply fresh|exact T'].
Qed.
Lemma condition_error e ns :
  ~ In builtins_name (dkeys ns) -> (forall v, ~ has_value (seen machine ns) e v) ->
  exists x, evaluate_condition py machine e ns = (ns, Err x)
    /\ value_in (ns ++ [(builtins_name, builtins_namespace machine)]) e = Err x.
Proof.
  intros N H. unfold evaluate_condition, execute_statement, exec. rewrite (not_builtins ns N). cbn [run_statement].
  destruct (value_in (ns ++ [(builtins_name, builtins_namespace machine)]) e) as [v|x] eqn:E.
  - apply (executed_value ns e v N) in E. now apply H in E.
  - now exists x.
Qed.

(** ** Functions *)
Lemma decorated_wrapped ds f : forall v, decorated py ds f = Ok v <-> wrapped py ds f v.
Proof.
  induction ds as [|d ds IH]; intros v; cbn [decorated].
  - split; [intros [= <-]; constructor|intros X; now inversion X].
  - split.
    + intros E. destruct (decorated py ds f) as [g|] eqn:D; [|discriminate]. econstructor; [now apply IH|exact E].
    + intros X. inversion X as [|? ? ? g ? Hg E]; subst. apply IH in Hg. now rewrite Hg.
Qed.
Lemma keyword_values_in ns l : ~ In builtins_name (dkeys ns) ->
  forall ks, named_values py machine (ns ++ [(builtins_name, builtins_namespace machine)])
               (flat_map (fun p => match snd p with Some e => [(arg_name (fst p), e)] | None => [] end) l) = Ok ks
    <-> keyword_values py machine (seen machine ns) l ks.
Proof.
  intros N. induction l as [|[a [e|]] l IH]; intros ks.
  - split; [intros [= <-]; constructor|intros X; now inversion X].
  - cbn [flat_map fst snd app]. unfold named_values. cbn [map_m fst snd]. split.
    + intros E. destruct (value_in (ns ++ [(builtins_name, builtins_namespace machine)]) e) as [v|] eqn:Ev; [|discriminate]. cbn [bind_res] in E.
      match type of E with (let* ys := ?x in _) = _ => destruct x as [ws|] eqn:Es; [|discriminate] end. injection E as <-.
      constructor; [now apply executed_value|now apply IH].
    + intros X. inversion X as [| |? ? v ? vs Hv Hs]; subst. apply IH in Hs. unfold named_values in Hs.
      rewrite (proj2 (executed_value ns e v N) Hv). cbn [bind_res]. now rewrite Hs.
  - cbn [flat_map fst snd app]. rewrite IH. split; [now constructor|]. intros X. now inversion X.
Qed.

(** Annotations that are texts *)
Definition lazily (l : list (pystr * option expr)) (l' : list (pystr * expr)) : Prop :=
  forall globals ans, named_values py machine globals l' = Ok ans <-> texts py l ans.
Lemma named_values_app globals l l' : forall ans,
  named_values py machine globals (l ++ l') = Ok ans
  <-> exists a b, named_values py machine globals l = Ok a /\ named_values py machine globals l' = Ok b /\ ans = a ++ b.
Proof.
  unfold named_values. induction l as [|x l IH]; intros ans; cbn [app map_m].
  - split; [intros E; now exists [], ans|]. intros (a & b & [= <-] & E & ->). exact E.
  - split.
    + intros E. match type of E with (let* y := ?z in _) = _ => destruct z as [y|] eqn:Ey; [|discriminate] end. cbn [bind_res] in E.
      match type of E with (let* y := ?z in _) = _ => destruct z as [w|] eqn:Ew; [|discriminate] end. injection E as <-.
      destruct (proj1 (IH w) eq_refl) as (a & b & Ea & Eb & ->). exists (y :: a), b. rewrite Ea. cbn [bind_res]. auto.
    + intros (a & b & E & Eb & ->). match type of E with (let* y := ?z in _) = _ => destruct z as [y|] eqn:Ey; [|discriminate] end. cbn [bind_res] in E |- *.
      match type of E with (let* y := ?z in _) = _ => destruct z as [w|] eqn:Ew; [|discriminate] end. injection E as <-.
      rewrite (proj2 (IH (w ++ b)) (ex_intro _ w (ex_intro _ b (conj eq_refl (conj Eb eq_refl))))). reflexivity.
Qed.
Lemma texts_app l l' : forall ans, texts py (l ++ l') ans <-> exists a b, texts py l a /\ texts py l' b /\ ans = a ++ b.
Proof.
  induction l as [|[n [e|]] l IH]; intros ans; cbn [app].
  - split; [intros X; exists [], ans; now repeat constructor|]. intros (a & b & X & Y & ->). inversion X. exact Y.
  - split.
    + intros X. inversion X as [| |? ? t ? vs E Hs]; subst. apply IH in Hs as (a & b & Ha & Hb & ->).
      exists ((n, of_constant py (CStr t)) :: a), b. repeat split; [now constructor|exact Hb].
    + intros (a & b & X & Y & ->). inversion X as [| |? ? t ? vs E Hs]; subst. cbn [app]. constructor; [exact E|]. apply IH. eauto.
  - split.
    + intros X. inversion X as [|? ? ? Hs|]; subst. apply IH in Hs as (a & b & Ha & Hb & ->). exists a, b. repeat split; [now constructor|exact Hb].
    + intros (a & b & X & Y & ->). inversion X; subst. constructor. apply IH. eauto.
Qed.
Lemma lazily_app l1 l1' l2 l2' : lazily l1 l1' -> lazily l2 l2' -> lazily (l1 ++ l2) (l1' ++ l2').
Proof.
  intros H1 H2 g ans. rewrite named_values_app, texts_app. split; intros (a & b & A & B & ->); exists a, b;
    (split; [now apply (H1 g)|split; [now apply (H2 g)|reflexivity]]).
Qed.
Lemma lazily_one n e t : to_str e = Ok t -> lazily [(n, Some e)] [(n, Constant (CStr t))].
Proof.
  intros T g ans. cbn. split.
  - intros [= <-]. now constructor; [|constructor].
  - intros X. inversion X as [| |? ? t' ? vs E Hs]; subst. inversion Hs; subst. rewrite T in E. now injection E as <-.
Qed.
Lemma lazily_none n : lazily [(n, None)] [].
Proof. intros g ans. cbn. split; [intros [= <-]; now repeat constructor|]. intros X. inversion X as [|? ? ? Y|]; subst. now inversion Y. Qed.
Lemma lazily_nil : lazily [] [].
Proof. intros g ans. cbn. split; [intros [= <-]; constructor|]. intros X. now inversion X. Qed.
Definition shown (a : arg) : pystr * option expr := (arg_name a, arg_annotation a).
Lemma lazy_arg_annotation a a' : lazy_arg a = Ok a' -> arg_name a' = arg_name a /\ lazily [shown a] (annotation_of a').
Proof.
  unfold lazy_arg, lazy_annotation, shown. destruct a as [n [e|]]; cbn [arg_annotation arg_name].
  - destruct (to_str e) as [t|] eqn:T; [|discriminate]. intros [= <-]. split; [reflexivity|]. now apply lazily_one.
  - intros [= <-]. split; [reflexivity|apply lazily_none].
Qed.
Lemma lazy_args_annotations l : forall l', map_m lazy_arg l = Ok l' ->
  map arg_name l' = map arg_name l /\ lazily (map shown l) (flat_map annotation_of l').
Proof.
  induction l as [|a l IH]; intros l' E; cbn [map_m] in E; [injection E as <-; split; [reflexivity|apply lazily_nil]|].
  destruct (lazy_arg a) as [a'|] eqn:Ea; [|discriminate]. cbn [bind_res] in E.
  destruct (map_m lazy_arg l) as [r|] eqn:Er; [|discriminate]. injection E as <-.
  destruct (lazy_arg_annotation _ _ Ea) as [N A], (IH _ eq_refl) as [Ns As]. split; [cbn [map]; now f_equal|].
  cbn [map flat_map]. now apply (lazily_app [_] _ _ _ A As).
Qed.
Lemma lazy_opt_annotation o o' : lazy_opt_arg o = Ok o' ->
  lazily (map shown (present o)) (match o' with Some x => annotation_of x | None => [] end).
Proof.
  destruct o as [a|]; cbn [lazy_opt_arg]; [|intros [= <-]; apply lazily_nil]. destruct (lazy_arg a) as [a'|] eqn:E; [|discriminate].
  intros [= <-]. now apply lazy_arg_annotation.
Qed.
Lemma lazy_annotations f f' : lazy_function f = Ok f' ->
  fd_name f' = fd_name f /\ fd_decorators f' = fd_decorators f /\ defaults (fd_args f') = defaults (fd_args f)
  /\ keyword_defaults f' = keyword_defaults f
  /\ lazily (map shown (parameters_of (fd_args f)) ++ [($"return", fd_returns f)]) (annotations f').
Proof.
  unfold lazy_function. destruct (lazy_annotation (fd_returns f)) as [r|] eqn:R; [|discriminate]. cbn [bind_res].
  unfold lazy_arguments. set (a := fd_args f).
  destruct (map_m lazy_arg (posonlyargs a)) as [po|] eqn:Po; [|discriminate]. cbn [bind_res].
  destruct (map_m lazy_arg (args a)) as [ar|] eqn:Ar; [|discriminate]. cbn [bind_res].
  destruct (lazy_opt_arg (vararg a)) as [va|] eqn:Va; [|discriminate]. cbn [bind_res].
  destruct (map_m lazy_arg (kwonlyargs a)) as [ko|] eqn:Ko; [|discriminate]. cbn [bind_res].
  destruct (lazy_opt_arg (kwarg a)) as [kw|] eqn:Kw; [|discriminate]. cbn [bind_res]. intros [= <-].
  cbn [fd_name fd_decorators fd_args defaults]. split; [reflexivity|]. split; [reflexivity|]. split; [reflexivity|].
  destruct (lazy_args_annotations _ _ Po) as [_ Lpo], (lazy_args_annotations _ _ Ar) as [_ Lar], (lazy_args_annotations _ _ Ko) as [Nko Lko].
  pose proof (lazy_opt_annotation _ _ Va) as Lva. pose proof (lazy_opt_annotation _ _ Kw) as Lkw. split.
  - unfold keyword_defaults. cbn [fd_args kwonlyargs kw_defaults]. fold a. clear - Nko.
    revert ko Nko. generalize (kw_defaults a). induction (kwonlyargs a) as [|x l IH]; intros ds [|y ko] E; try discriminate; [reflexivity|].
    destruct ds as [|d ds]; [reflexivity|]. cbn [map] in E. injection E as E1 E2. cbn [combine flat_map fst snd]. rewrite E1. f_equal. now apply IH.
  - unfold parameters_of, annotations. cbn [fd_args args posonlyargs vararg kwonlyargs kwarg fd_returns]. rewrite !map_app, <- !app_assoc.
    repeat (apply lazily_app; [assumption|]). unfold lazy_annotation in R. destruct (fd_returns f) as [e|].
    + destruct (to_str e) as [t|] eqn:T; [|discriminate]. injection R as <-. now apply lazily_one.
    + injection R as <-. apply lazily_none.
Qed.

Lemma executed_function ns asynchronous f v :
  ~ In builtins_name (dkeys ns) -> 
  (exists f', lazy_function f = Ok f'
     /\ exists globals, exec py machine (Defined asynchronous f') ns = Ok globals /\ dget (fd_name f) globals = Some v)
  <-> function_gives py machine (seen machine ns) asynchronous f v.
Proof.
  intros N. unfold function_gives. split.
  - intros (f' & L & g & E & G). destruct (lazy_annotations _ _ L) as (En & Ed & Edf & Ek & La).
    unfold exec in E. rewrite (not_builtins ns N) in E. cbn [run_statement] in E. rewrite Ed, Edf, Ek in E.
    destruct (map_m _ (fd_decorators f)) as [ds|] eqn:Hd; [|discriminate]. cbn [bind_res] in E.
    destruct (map_m _ (defaults (fd_args f))) as [vs|] eqn:Hv; [|discriminate]. cbn [bind_res] in E.
    destruct (named_values _ _ _ (keyword_defaults f)) as [ks|] eqn:Hk; [|discriminate]. cbn [bind_res] in E.
    destruct (named_values _ _ _ (annotations f')) as [ans|] eqn:Ha; [|discriminate]. cbn [bind_res] in E.
    destruct (decorated py ds (make_function machine asynchronous f' vs ks ans)) as [w|] eqn:Hw; [|discriminate]. injection E as <-.
    rewrite En, dget_dset, eqb_refl in G. injection G as ->.
    exists f', ds, vs, ks, ans. split; [exact L|]. split; [now apply executed_values in Hd|]. split; [now apply executed_values in Hv|].
    split; [now apply keyword_values_in in Hk|]. split; [now apply La in Ha|]. now apply decorated_wrapped.
  - intros (f' & ds & vs & ks & ans & L & Hd & Hv & Hk & Ha & Hw). exists f'. split; [exact L|].
    destruct (lazy_annotations _ _ L) as (En & Ed & Edf & Ek & La).
    unfold exec. rewrite (not_builtins ns N). cbn [run_statement]. rewrite Ed, Edf, Ek.
    rewrite (proj2 (executed_values ns _ _ N) Hd). cbn [bind_res]. rewrite (proj2 (executed_values ns _ _ N) Hv). cbn [bind_res].
    unfold keyword_defaults. rewrite (proj2 (keyword_values_in ns _ N _) Hk). cbn [bind_res].
    rewrite (proj2 (La _ _) Ha). cbn [bind_res]. rewrite (proj2 (decorated_wrapped _ _ _) Hw). cbn [bind_res].
    eexists. split; [reflexivity|]. now rewrite En, dget_dset, eqb_refl.
Qed.
Lemma dget_updated (new : list (pystr * V)) n : forall ns, NoDup (dkeys new) ->
  dget n (update ns new) = match dget n new with Some v => Some v | None => dget n ns end.
Proof.
  unfold update. induction new as [|[k v] new IH]; intros ns D; [reflexivity|]. cbn [fold_left fst snd].
  unfold dkeys in D. cbn [map fst] in D. inversion_clear D as [|? ? D1 D2]. rewrite IH by exact D2. rewrite dget_cons, dget_dset.
  destruct (eqb_reflect n k) as [->|]; [|reflexivity]. now rewrite (proj2 (dget_none_iff k new)).
Qed.
Lemma dset_NoDup (n : pystr) (v : V) (d : dict pystr V) : NoDup (dkeys d) -> NoDup (dkeys (dset n v d)).
Proof.
  intros D. destruct (in_dec (list_eq_dec N.eq_dec) n (dkeys d)) as [I|I].
  - replace (dkeys (dset n v d)) with (dkeys d); [exact D|]. clear D. induction d as [|[k w] d IH]; [destruct I|]. rewrite dset_cons.
    destruct (eqb_reflect n k) as [->|]; [reflexivity|]. unfold dkeys in *. cbn [map fst]. f_equal. apply IH. destruct I as [I|I]; [cbn [fst] in I; congruence|assumption].
  - rewrite dset_new by exact I. now apply fresh.
Qed.
Lemma exec_keeps ns asynchronous f globals :
  NoDup (dkeys ns) -> exec py machine (Defined asynchronous f) ns = Ok globals -> NoDup (dkeys globals).
Proof.
  intros D E. unfold exec in E. cbn [run_statement] in E.
  repeat match type of E with (let* x := ?z in _) = _ => destruct z; [cbn [bind_res] in E|discriminate] end.
  injection E as <-. apply dset_NoDup. destruct (dmem builtins_name ns); [exact D|now apply dset_NoDup].
Qed.
Lemma function_executed ns asynchronous f v :
  NoDup (dkeys ns) -> ~ In builtins_name (dkeys ns) ->
  (let* f' := lazy_function f in
   match execute_statement py machine (Defined asynchronous f') ns with
   | (ns, Ok _) => snd (pop (fd_name f) ns)
   | (_, Err e) => Err e
   end) = Ok v
  <-> function_gives py machine (seen machine ns) asynchronous f v.
Proof.
  intros D N. rewrite <- executed_function by exact N. unfold execute_statement.
  assert (P : forall f' globals, lazy_function f = Ok f' -> exec py machine (Defined asynchronous f') ns = Ok globals ->
                snd (pop (fd_name f) (update ns globals)) = Ok v <-> dget (fd_name f) globals = Some v).
  { intros f' g L E. unfold pop. rewrite dget_updated by (eapply exec_keeps; eassumption).
    assert (X : dget (fd_name f) g <> None).
    { unfold exec in E. cbn [run_statement] in E. repeat match type of E with (let* x := ?z in _) = _ => destruct z; [cbn [bind_res] in E|discriminate] end.
      injection E as <-. destruct (lazy_annotations _ _ L) as (-> & _). rewrite dget_dset, eqb_refl. discriminate. }
    destruct (dget (fd_name f) g) as [w|]; [|easy]. cbn [snd]. split; intros [= ->]; reflexivity. }
  split.
  - intros E. destruct (lazy_function f) as [f'|] eqn:L; [|discriminate]. cbn [bind_res] in E. exists f'. split; [reflexivity|].
    destruct (exec py machine (Defined asynchronous f') ns) as [g|] eqn:Eg; [|discriminate]. exists g. split; [reflexivity|]. now apply (P f' g eq_refl Eg) in E.
  - intros (f' & L & g & Eg & G). rewrite L. cbn [bind_res]. rewrite Eg. now apply (P f' g L Eg).
Qed.
End Proofs.
