(** C85, C86: files, stubs and attributes. *)
From Verif Require Import Base Catalog Sources SourcesProofs Files SpecFiles.

Fixpoint entry_ind' (P : entry -> Prop) (HF : P File) (HL : P LinkToDirectory)
  (HD : forall entries, Forall (fun e => P (snd e)) entries -> P (Directory entries)) (e : entry) : P e :=
  match e with
  | File => HF
  | LinkToDirectory => HL
  | Directory entries => HD entries ((fix go l : Forall (fun e => P (snd e)) l :=
      match l with [] => Forall_nil _ | x :: r => Forall_cons x (entry_ind' P HF HL HD (snd x)) (go r) end) entries)
  end.

Lemma find_files_directory parents entries :
  find_files parents (Directory entries)
  = files_in parents entries ++ flat_map (fun e => find_files (parents ++ [fst e]) (snd e)) entries.
Proof.
  cbn [find_files]. f_equal. induction entries as [|[n e] r IH]; [reflexivity|]. cbn [flat_map fst snd]. now rewrite <- IH.
Qed.
Lemma files_in_In parents entries f : In f (files_in parents entries) <-> exists n, f = (parents, n) /\ In (n, File) entries.
Proof.
  unfold files_in. rewrite in_flat_map. split.
  - intros ([n e] & I & J). cbn in J. destruct e; [|easy|easy]. destruct J as [<-|[]]. eauto.
  - intros (n & -> & I). exists (n, File). split; [exact I|now left].
Qed.
Lemma find_files_In e : forall parents f, In f (find_files parents e) <-> exists q, fst f = parents ++ q /\ is_file e q (snd f).
Proof.
  induction e as [| |entries IH] using entry_ind'; intros parents f.
  - split; [intros []|]. intros (q & _ & H). inversion H.
  - split; [intros []|]. intros (q & _ & H). inversion H.
  - rewrite find_files_directory, in_app_iff, files_in_In, in_flat_map. rewrite Forall_forall in IH. split.
    + intros [(n & -> & I)|([n e] & I & J)].
      * exists []. rewrite app_nil_r. split; [reflexivity|now constructor].
      * cbn [fst snd] in J. apply (IH _ I) in J as (q & E & H). exists (n :: q). rewrite E, <- app_assoc. split; [reflexivity|].
        econstructor; eassumption.
    + intros (q & E & H). inversion H as [es n I|es d e p n I H']; subst.
      * left. rewrite app_nil_r in E. destruct f as [p n]; cbn in *. subst. eauto.
      * right. exists (d, e). split; [exact I|]. cbn [fst snd]. apply (IH _ I). exists p. rewrite <- app_assoc. auto.
Qed.
Lemma find_files_root e p n : In (p, n) (find_files [] e) <-> is_file e p n.
Proof. rewrite find_files_In. cbn. split; [intros (q & -> & H); exact H|eauto]. Qed.

(** Files of a directory come before those of its directories. *)
Lemma flat_map_split {A B} (f : A -> list B) xs l y r : flat_map f xs = l ++ y :: r ->
  exists xs1 x xs2 l' r', xs = xs1 ++ x :: xs2 /\ f x = l' ++ y :: r' /\ l = flat_map f xs1 ++ l' /\ r = r' ++ flat_map f xs2.
Proof.
  revert l. induction xs as [|x xs IH]; intros l E; [now destruct l|]. cbn in E. apply app_eq_app in E as (k & [[E1 E2]|[E1 E2]]).
  - destruct k as [|z k]; cbn in E2.
    + symmetry in E2. destruct (IH [] E2) as (xs1 & x' & xs2 & l' & r' & -> & F & G & ->).
      exists (x :: xs1), x', xs2, l', r'. split; [reflexivity|]. split; [exact F|]. split; [|reflexivity].
      rewrite app_nil_r in E1. subst l. cbn. rewrite <- app_assoc, <- G. now rewrite app_nil_r.
    + injection E2 as <- ->. exists [], x, xs, l, k. now rewrite E1.
  - destruct (IH k E2) as (xs1 & x' & xs2 & l' & r' & -> & F & -> & ->).
    exists (x :: xs1), x', xs2, l', r'. subst l. cbn. now rewrite <- app_assoc.
Qed.
Lemma directories_after e : distinct e -> forall parents l p n r d q n',
  find_files parents e = l ++ (p, n) :: r -> ~ In (p ++ d :: q, n') l.
Proof.
  induction e as [| |entries IH] using entry_ind'; intros D parents l p n r d q n' E I.
  - now destruct l.
  - now destruct l.
  - inversion D as [| |es Nd Ds]; subst. rewrite Forall_forall in IH. rewrite find_files_directory in E.
    assert (Above : forall l0, incl l0 (files_in parents entries) -> In (p, n) (find_files parents (Directory entries)) -> ~ In (p ++ d :: q, n') l0).
    { intros l0 L J K. apply L, files_in_In in K as (m & [= K <-] & _). apply find_files_In in J as (q' & J & _). cbn in J.
      apply (f_equal (@length pystr)) in K. subst p. rewrite !app_length in K. cbn in K. lia. }
    assert (J : In (p, n) (find_files parents (Directory entries))) by (rewrite find_files_directory, E; apply in_elt).
    apply app_eq_app in E as (k & [[E1 E2]|[E1 E2]]).
    + exact (Above l (fun x Hx => eq_ind_r (fun z => In x z) (in_or_app _ _ _ (or_introl Hx)) E1) J I).
    + subst l. apply in_app_iff in I as [I|I]; [exact (Above _ (incl_refl _) J I)|].
      apply flat_map_split in E2 as (es1 & [x e] & es2 & l' & r' & -> & F & -> & ->). cbn [fst snd] in F.
      assert (Ie : In (x, e) (es1 ++ (x, e) :: es2)) by apply in_elt.
      assert (Q : exists p', p = parents ++ x :: p').
      { assert (M : In (p, n) (find_files (parents ++ [x]) e)) by (rewrite F; apply in_elt).
        apply find_files_In in M as (p' & M & _). cbn in M. exists p'. now rewrite <- app_assoc in M. }
      destruct Q as [p' ->]. apply in_app_iff in I as [I|I].
      * apply in_flat_map in I as ([x' e'] & I' & I). cbn [fst snd] in I. apply find_files_In in I as (q' & I & _). cbn in I.
        rewrite <- !app_assoc in I. cbn in I. apply app_inv_head in I. injection I as -> _.
        rewrite map_app in Nd. cbn in Nd. apply NoDup_remove_2 in Nd. apply Nd. apply in_or_app. left.
        change x' with (fst (x', e')). now apply in_map.
      * revert I. refine (IH (x, e) Ie (Ds x e Ie) (parents ++ [x]) l' _ n r' d q n' _). exact F.
Qed.

Lemma NoDup_app {A} (l l' : list A) : NoDup l -> NoDup l' -> (forall x, In x l -> ~ In x l') -> NoDup (l ++ l').
Proof.
  induction 1 as [|x l Nx N IH]; intros N' D; [exact N'|]. cbn. constructor.
  - rewrite in_app_iff. intros [I|I]; [easy|]. apply (D x); [now left|exact I].
  - apply IH; [exact N'|]. intros y Hy. apply D. now right.
Qed.
Lemma NoDup_flat_map {A B} (f : A -> list B) xs : NoDup xs -> (forall x, In x xs -> NoDup (f x)) ->
  (forall x y b, In x xs -> In y xs -> In b (f x) -> In b (f y) -> x = y) -> NoDup (flat_map f xs).
Proof.
  induction xs as [|x xs IH]; intros N Nf I; cbn; [constructor|]. inversion N as [|y ys Nx Nxs]; subst.
  apply NoDup_app.
  - apply Nf. now left.
  - apply IH; [exact Nxs|intros y Hy; apply Nf; now right|]. intros a b c Ha Hb. apply I; now right.
  - intros b Hb Hc. apply in_flat_map in Hc as (y & Hy & Hc). rewrite (I x y b) in Nx; auto; [now left|now right].
Qed.
Lemma NoDup_fst {A B} (l : list (A * B)) : NoDup (map fst l) -> NoDup l.
Proof. apply NoDup_map_inv. Qed.
Lemma find_files_NoDup e : distinct e -> forall parents, NoDup (find_files parents e).
Proof.
  induction e as [| |entries IH] using entry_ind'; intros D parents; [constructor|constructor|].
  inversion D as [| |es Nd Ds]; subst. rewrite Forall_forall in IH. rewrite find_files_directory.
  assert (U : forall n a b, In (n, a) entries -> In (n, b) entries -> a = b).
  { clear -Nd. induction entries as [|[k v] r IH]; cbn in *; [easy|]. inversion Nd as [|? ? Nk Nr]; subst.
    intros n a b [[= <- <-]|Ia] [[= E]|Ib]; [congruence| | |now apply IH with n].
    - destruct Nk. change k with (fst (k, b)). now apply in_map.
    - subst. destruct Nk. change n with (fst (n, a)). now apply in_map. }
  apply NoDup_app.
  - unfold files_in. apply NoDup_flat_map; [now apply NoDup_fst| |].
    + intros [n e] _. cbn. destruct e; repeat constructor. intros [].
    + intros [n e] [n' e'] b I I' J J'. cbn in J, J'. destruct e, e'; try easy. destruct J as [<-|[]], J' as [[= <-]|[]]. reflexivity.
  - apply NoDup_flat_map; [now apply NoDup_fst| |].
    + intros [n e] I. apply (IH _ I). now apply (Ds n).
    + intros [n e] [n' e'] b I I' J J'. cbn [fst snd] in *. apply find_files_In in J as (q & J & _), J' as (q' & J' & _).
      rewrite J in J'. rewrite <- !app_assoc in J'. apply app_inv_head in J'. injection J' as -> _. now rewrite (U n' e e').
  - intros f I J. apply files_in_In in I as (n & -> & _). apply in_flat_map in J as ([d e] & _ & J). cbn [fst snd] in J.
    apply find_files_In in J as (q & J & _). cbn in J. rewrite <- app_assoc in J. rewrite <- (app_nil_r parents) in J at 1.
    apply app_inv_head in J. discriminate.
Qed.

(** ** Stubs *)
Lemma undotted_stub n : undotted n -> is_stub (n ++ $".pyi") = true.
Proof. intros (k & s & A & B & ->). apply is_stub_iff. exists k, s. now rewrite <- app_assoc. Qed.
Lemma stub_undotted name : is_stub name = true -> exists n, undotted n /\ name = n ++ $".pyi".
Proof.
  intros H. apply is_stub_iff in H as (k & s & A & B & ->). exists (repeat dot k ++ s). rewrite <- app_assoc. split; [|reflexivity].
  exists k, s. auto.
Qed.
Lemma undotted_ne (n : pystr) : undotted n -> n <> [].
Proof. intros (k & s & A & _ & ->) E. apply app_eq_nil in E as [_ E]. auto. Qed.
Lemma stem_pyi (n : pystr) : n <> [] -> stem (n ++ $".pyi") = n.
Proof.
  intros N. unfold stem. change $".pyi" with (dot :: $"pyi").
  pose proof (with_suffix_spec [] n $"pyi" N) as W. unfold with_suffix in W. rewrite !app_nil_r in W. apply W; [discriminate|].
  cbn. intuition discriminate.
Qed.

Section Stubs.
Variable all : list pystr.
Hypothesis py : In $".py" all.
Hypothesis only_py : forall s r, In s all -> s = r ++ $".py" -> r = [].
Lemma getmodulename_py (n : pystr) : getmodulename all (n ++ $".py") = Some n.
Proof.
  apply getmodulename_iff. exists $".py". split; [exact py|]. split; [reflexivity|]. intros x r Ix E.
  apply Nat.nlt_ge. intros L. symmetry in E. apply app_eq_app in E as (k & [[_ E]|[_ E]]).
  - apply (f_equal (@length BinNums.N)) in E. rewrite app_length in E. cbn in E, L. lia.
  - rewrite (only_py x k Ix E) in E. subst x. cbn in L. lia.
Qed.
Lemma stub_module (parents : path) (n : pystr) : n <> [] ->
  stub_to_module_path all parents (n ++ $".pyi") = if n == $"__init__" then parents else parents ++ [n].
Proof.
  intros N. unfold stub_to_module_path, relative_file_path_to_module_path. change $".pyi" with (dot :: $"pyi").
  rewrite with_suffix_spec; [|exact N|discriminate|cbn; intuition discriminate]. now rewrite getmodulename_py.
Qed.

Lemma dget_dict_of {K A} `{Eqb K} (items : list (K * A)) k v : dget k (dict_of items) = Some v <->
  exists l r, items = l ++ (k, v) :: r /\ forall v', ~ In (k, v') r.
Proof.
  unfold dict_of. rewrite <- (rev_involutive items). generalize (rev items). clear items. intros l.
  induction l as [|[k' v'] l IH]; cbn [rev].
  - split; [discriminate|]. intros ([|? ?] & r & E & _); discriminate.
  - rewrite fold_left_app. cbn [fold_left fst snd]. rewrite dget_dset. destruct (eqb_reflect k k') as [<-|N].
    + split.
      * intros [= <-]. exists (rev l), []. split; [reflexivity|intros w []].
      * intros (l1 & r & E & Nr). destruct (snoc_cases r) as [->|(r' & x & ->)].
        { apply app_inj_tail in E as [_ [= ->]]. reflexivity. }
        exfalso. rewrite app_comm_cons, app_assoc in E. apply app_inj_tail in E as [_ <-]. apply (Nr v'). apply in_or_app. right. now left.
    + rewrite IH. split.
      * intros (l1 & r & -> & Nr). exists l1, (r ++ [(k', v')]). rewrite <- app_assoc. split; [reflexivity|].
        intros v0 I. apply in_app_iff in I as [I|[[= E _]|[]]]; [now apply (Nr v0)|congruence].
      * intros (l1 & r & E & Nr). destruct (snoc_cases r) as [->|(r' & x & ->)].
        { apply app_inj_tail in E as [_ [= E _]]. congruence. }
        rewrite app_comm_cons, app_assoc in E. apply app_inj_tail in E as [E _]. exists l1, r'. split; [exact E|].
        intros v0 I. apply (Nr v0). apply in_or_app. now left.
Qed.
Lemma map_filter_split {A B} (g : A -> B) (h : A -> bool) xs l y r : map g (filter h xs) = l ++ y :: r ->
  exists xs1 x xs2, xs = xs1 ++ x :: xs2 /\ h x = true /\ y = g x /\ l = map g (filter h xs1) /\ r = map g (filter h xs2).
Proof.
  revert l. induction xs as [|x xs IH]; intros l E; [now destruct l|]. cbn in E. destruct (h x) eqn:Hx.
  - cbn in E. destruct l as [|z l]; injection E as <- E.
    + exists [], x, xs. subst r. auto.
    + destruct (IH l E) as (xs1 & x' & xs2 & -> & Hx' & -> & -> & ->). exists (x :: xs1), x', xs2. cbn. rewrite Hx. auto.
  - destruct (IH l E) as (xs1 & x' & xs2 & -> & Hx' & -> & -> & ->). exists (x :: xs1), x', xs2. cbn. rewrite Hx. auto.
Qed.

Lemma stub_found root m f : distinct root -> from_module_path all root m = Some f -> stub_of root m f.
Proof.
  intros D H. unfold from_module_path, stubs_cache, to_stubs_cache in H. apply dget_dict_of in H as (l & r & E & Nr).
  apply map_filter_split in E as (xs1 & [p name] & xs2 & E & S & G & -> & ->). cbn [fst snd] in *. injection G as -> ->.
  apply stub_undotted in S as (n & U & ->). pose proof (undotted_ne n U) as Ne. pose proof (stub_module p n Ne) as M.
  assert (I : is_file root p (n ++ $".pyi")) by (apply find_files_root; rewrite E; apply in_elt).
  rewrite M in Nr. rewrite M. destruct (n == $"__init__") eqn:B.
  - apply eqb_to_eq in B. subst n. left. split; [exact I|reflexivity].
  - assert (Ni : n <> $"__init__") by (now apply eqb_neq). right. split; [|exists p, n; split; [reflexivity|]; split; [exact (conj U (conj Ni I))|reflexivity]].
    intros P. apply find_files_root in P. rewrite E in P. apply in_elt_inv in P as [P|P]; [injection P as P _|].
    + apply (f_equal (@length pystr)) in P. rewrite app_length in P. cbn in P. lia.
    + apply in_app_iff in P as [P|P].
      * exact (directories_after root D [] xs1 p _ xs2 n [] _ E P).
      * apply (Nr (p ++ [n], $"__init__.pyi")). apply in_map_iff. exists (p ++ [n], $"__init__.pyi"). split.
        { cbn [fst snd]. f_equal. now apply (stub_module (p ++ [n]) $"__init__"). }
        apply filter_In. split; [exact P|reflexivity].
Qed.
Lemma stub_of_unique root m f f' : stub_of root m f -> stub_of root m f' -> f = f'.
Proof.
  intros [[P ->]|(N & p & n & E & _ & ->)] [[P' ->]|(N' & p' & n' & E' & _ & ->)]; try easy.
  subst m. apply app_inj_tail in E' as [-> ->]. reflexivity.
Qed.
Lemma stub_exists root m f : stub_of root m f -> exists f', from_module_path all root m = Some f'.
Proof.
  intros S. destruct (from_module_path all root m) as [f'|] eqn:E; [eauto|exfalso].
  assert (G : exists n, undotted n /\ snd f = n ++ $".pyi" /\ is_file root (fst f) (snd f)
              /\ stub_to_module_path all (fst f) (snd f) = m).
  { destruct S as [[P ->]|(N & p & n & -> & (U & Ni & I) & ->)]; cbn [fst snd].
    - exists $"__init__". split; [exists 0, $"__init__"; repeat split; [discriminate|cbn; intuition discriminate]|].
      split; [reflexivity|]. split; [exact P|]. now apply (stub_module m $"__init__").
    - exists n. split; [exact U|]. split; [reflexivity|]. split; [exact I|]. rewrite stub_module by (now apply undotted_ne).
      apply eqb_neq in Ni. now rewrite Ni. }
  destruct G as (n & U & En & I & M). unfold from_module_path, stubs_cache, to_stubs_cache, dict_of in E.
  assert (K : forall (items : list (path * (path * pystr))) d v, In (m, v) items \/ dget m d <> None ->
            dget m (fold_left (fun d ka => dset (fst ka) (snd ka) d) items d) <> None).
  { clear. induction items as [|[k v] r IH]; intros d w [I|I]; cbn; [easy|exact I| |].
    - destruct I as [[= -> ->]|I]; apply (IH _ w); [right|now left]. rewrite dget_dset, eqb_refl. discriminate.
    - apply (IH _ w). right. rewrite dget_dset. now destruct (m == k). }
  apply (K _ [] f) in E; [exact E|]. left. apply in_map_iff. exists f. rewrite M. split; [reflexivity|].
  apply filter_In. split; [destruct f; now apply find_files_root|]. rewrite En. now apply undotted_stub.
Qed.
Lemma from_module_path_iff root m f : distinct root -> from_module_path all root m = Some f <-> stub_of root m f.
Proof.
  intros D. split; [now apply stub_found|]. intros S. destruct (stub_exists root m f S) as [f' E]. rewrite E. f_equal.
  apply stub_of_unique with root m; [now apply stub_found|exact S].
Qed.
End Stubs.

(** ** Attributes *)
Lemma reduce_getattr_iff {O} (getattr : O -> pystr -> res O) names : forall value value',
  reduce_getattr O getattr names value = Ok value' <-> attributes getattr value names value'.
Proof.
  induction names as [|n r IH]; intros v v'; cbn.
  - split; [intros [= ->]; constructor|]. intros H. now inversion H.
  - destruct (getattr v n) as [w|e] eqn:E; cbn.
    + rewrite IH. split; [intros H; econstructor; eassumption|]. intros H. inversion H; subst. congruence.
    + split; [discriminate|]. intros H. inversion H; subst. congruence.
Qed.
Lemma reduce_getattr_err {O} (getattr : O -> pystr -> res O) names : forall value e,
  reduce_getattr O getattr names value = Err e <->
  exists before name after v, names = before ++ name :: after /\ attributes getattr value before v /\ getattr v name = Err e.
Proof.
  induction names as [|n r IH]; intros v e; cbn.
  - split; [discriminate|]. intros ([|? ?] & ? & ? & ? & E & _); discriminate.
  - destruct (getattr v n) as [w|e'] eqn:E; cbn.
    + rewrite IH. split.
      * intros (b & x & a & u & -> & H & G). exists (n :: b), x, a, u. split; [reflexivity|]. split; [econstructor; eassumption|exact G].
      * intros ([|y b] & x & a & u & Eq & H & G).
        { injection Eq as -> ->. inversion H; subst. congruence. }
        injection Eq as -> ->. inversion H; subst. exists b, x, a, u. split; [reflexivity|]. split; [congruence|exact G].
    + split.
      * intros [= ->]. exists [], n, r, v. repeat split; [constructor|exact E].
      * intros ([|y b] & x & a & u & Eq & H & G).
        { injection Eq as -> ->. inversion H; subst. congruence. }
        injection Eq as -> ->. inversion H; subst. congruence.
Qed.
