(** Properties C85 and C86: stubs in the file system, packages, attributes. *)
From Verif Require Import Base Catalog Sources SourcesProofs Files SpecFiles FilesProofs.

(** ** C85 *)
(** All files are found, *)
Theorem C85_files :
  forall root parents name, In (parents, name) (find_files [] root) <-> is_file root parents name.
Proof. exact find_files_root. Qed.
Print Assumptions C85_files.
(** ... each once, *)
Theorem C85_each_once : forall root, distinct root -> NoDup (find_files [] root).
Proof. intros root D. now apply find_files_NoDup. Qed.
Print Assumptions C85_each_once.
(** ... files of a directory before those in directories of it. *)
Theorem C85_directories_after :
  forall root before parents name after directory rest name',
    distinct root -> find_files [] root = before ++ (parents, name) :: after ->
    is_file root (parents ++ directory :: rest) name' -> In (parents ++ directory :: rest, name') after.
Proof.
  intros root l p n r d q n' D E I. apply C85_files in I. rewrite E in I. apply in_elt_inv in I as [I|I].
  - injection I as I _. apply (f_equal (@length pystr)) in I. rewrite app_length in I. cbn in I. lia.
  - apply in_app_iff in I as [I|I]; [|exact I]. now apply (directories_after root D [] l p n r d q n') in I.
Qed.
Print Assumptions C85_directories_after.

(** The stub of a module: that of the package if there is one, else that of the module. *)
Theorem C85_stub_of_module :
  forall all_suffixes root m source,
    In $".py" all_suffixes -> (forall s r, In s all_suffixes -> s = r ++ $".py" -> r = []) -> distinct root ->
    (from_module_path all_suffixes root m = Some source <-> stub_of root m source).
Proof. intros all root m f P O D. now apply from_module_path_iff. Qed.
Print Assumptions C85_stub_of_module.

(** Packages: those with [__init__.pyi]; modules with a stub are none; without
    stub it is as the import system says. *)
Theorem C85_is_package :
  forall all_suffixes find_spec root m,
    In $".py" all_suffixes -> (forall s r, In s all_suffixes -> s = r ++ $".py" -> r = []) -> distinct root ->
    (package_stub root m -> is_package all_suffixes find_spec root m = Ok true)
    /\ (forall parents n, m = parents ++ [n] -> ~ package_stub root m -> module_stub root parents n ->
          is_package all_suffixes find_spec root m = Ok false)
    /\ (~ package_stub root m -> (forall parents n, m = parents ++ [n] -> ~ module_stub root parents n) ->
        is_package all_suffixes find_spec root m
        = match find_spec m with
          | Ok (Some (Some source)) => Ok (stem (snd source) == $"__init__")
          | Ok _ => Ok false
          | Err e => Err e
          end).
Proof.
  intros all fs root m P O D. pose proof (fun f => from_module_path_iff all P O root m f D) as S. unfold is_package. split; [|split].
  - intros H. assert (E : from_module_path all root m = Some (m, $"__init__.pyi")) by (apply S; now left). now rewrite E.
  - intros p n -> N M. assert (E : from_module_path all root (p ++ [n]) = Some (p, n ++ $".pyi")) by (apply S; right; eauto 8).
    rewrite E. cbn [snd]. destruct M as (U & Ni & _). rewrite stem_pyi by (now apply undotted_ne). f_equal. now apply eqb_neq.
  - intros N M. destruct (from_module_path all root m) as [f|] eqn:E.
    + exfalso. destruct (proj1 (S f) eq_refl) as [[H _]|(_ & p & n & -> & H & _)]; [easy|]. now apply (M p n).
    + destruct (fs m) as [[[s|]|]|e]; reflexivity.
Qed.
Print Assumptions C85_is_package.
(** Files with [__init__] and any suffix have that stem. *)
Theorem C85_stems :
  forall n s, n <> [] -> s <> [] -> ~ In dot s -> stem (n ++ dot :: s) = n.
Proof.
  intros n s N Ns D. unfold stem. pose proof (with_suffix_spec [] n s N Ns D) as W. unfold with_suffix in W.
  now rewrite !app_nil_r in W.
Qed.
Print Assumptions C85_stems.

Module Tree.
Definition root : entry := Directory
  [($"os", Directory [($"path.pyi", File); ($"__init__.pyi", File)]); ($"os.pyi", File); ($"re.pyi", File); ($"README", File);
   ($"loop", LinkToDirectory)].
Definition suffixes : list pystr := [$".py"; $".pyc"; $".cpython-311-x86_64-linux-gnu.so"; $".abi3.so"; $".so"].
Definition no_spec : path -> res (option (option (path * pystr))) := fun _ => Ok None.
End Tree.
Example C85_example :
  find_files [] Tree.root
  = [([], $"os.pyi"); ([], $"re.pyi"); ([], $"README"); ([$"os"], $"path.pyi"); ([$"os"], $"__init__.pyi")]
  /\ from_module_path Tree.suffixes Tree.root [$"os"] = Some ([$"os"], $"__init__.pyi")
  /\ from_module_path Tree.suffixes Tree.root [$"os"; $"path"] = Some ([$"os"], $"path.pyi")
  /\ map (is_package Tree.suffixes Tree.no_spec Tree.root) [[$"os"]; [$"re"]; [$"os"; $"path"]; [$"x"]]
     = [Ok true; Ok false; Ok false; Ok false].
Proof. vm_compute. auto. Qed.
Example C85_provisos :
  distinct Tree.root /\ In $".py" Tree.suffixes
  /\ forall s r, In s Tree.suffixes -> s = r ++ $".py" -> r = [].
Proof.
  split; [|split; [now left|]].
  - constructor.
    + repeat constructor; cbn; intuition discriminate.
    + intros n e [[= _ <-]|[[= _ <-]|[[= _ <-]|[[= _ <-]|[[= _ <-]|[]]]]]]; try constructor.
      * repeat constructor; cbn; intuition discriminate.
      * intros n' e [[= _ <-]|[[= _ <-]|[]]]; constructor.
  - intros s r I E. assert (F : ends_with $".py" s = true) by (apply ends_with_iff; eauto).
    destruct I as [<-|[<-|[<-|[<-|[<-|[]]]]]]; try discriminate F. apply (f_equal (@length _)) in E. rewrite app_length in E. destruct r; [reflexivity|cbn in E; lia].
Qed.

(** ** C86 *)
(** The object reached by the attributes, one after another, *)
Theorem C86_found :
  forall O (getattr : O -> pystr -> res O) value names value',
    search O getattr value names = Ok (Some value') <-> attributes getattr value names value'.
Proof.
  intros O g v ns v'. rewrite <- reduce_getattr_iff. unfold search. destruct (reduce_getattr O g ns v) as [w|[]]; split; congruence.
Qed.
Print Assumptions C86_found.
(** ... not found if one of them is missing; other exceptions are passed on. *)
Theorem C86_not_found :
  forall O (getattr : O -> pystr -> res O) value names,
    search O getattr value names = Ok None <->
    exists before name after v,
      names = before ++ name :: after /\ attributes getattr value before v /\ getattr v name = Err AttributeError.
Proof.
  intros O g v ns. rewrite <- reduce_getattr_err. unfold search. destruct (reduce_getattr O g ns v) as [w|[]]; split; congruence.
Qed.
Print Assumptions C86_not_found.
Theorem C86_other_exceptions :
  forall O (getattr : O -> pystr -> res O) value names e,
    search O getattr value names = Err e <->
    e <> AttributeError
    /\ exists before name after v,
         names = before ++ name :: after /\ attributes getattr value before v /\ getattr v name = Err e.
Proof.
  intros O g v ns e. rewrite <- reduce_getattr_err. unfold search.
  destruct (reduce_getattr O g ns v) as [w|[]]; (split; [|intros [A B]; congruence]); intros H; inv H; split; congruence.
Qed.
Print Assumptions C86_other_exceptions.
Example C86_example :
  let getattr := fun (v : list nat) (n : pystr) => if n == $"tail" then match v with _ :: r => Ok r | [] => Err ValueError end else Err AttributeError in
  search _ getattr [1; 2; 3] [$"tail"; $"tail"] = Ok (Some [3])
  /\ search _ getattr [1] [$"tail"; $"head"; $"tail"] = Ok None
  /\ search _ getattr [] [$"tail"] = Err ValueError.
Proof. repeat split. Qed.
