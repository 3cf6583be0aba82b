(** C140: the folder in which programs are built. *)
From Coq Require Import ZArith List Bool String Lia.
From Verif Require Import Base Dict PartModel CompileModel LoadModel StashModel FolderModel LoadProps.
Import ListNotations.
Local Open Scope list_scope.
Local Open Scope Z_scope.

Lemma append_assoc (a b c : string) : ((a ++ b) ++ c = a ++ (b ++ c))%string.
Proof. induction a as [|x a IH]; [reflexivity|]. cbn. now rewrite IH. Qed.
Lemma home_is root p name : home root p name = sdfg_dir root p name.
Proof. unfold home, sdfg_dir. destruct p; reflexivity. Qed.

(** ** one DaceConfig *)
(** the orchestrated backends are these *)
Theorem C140_orchestrated : forall b g, as_gt4py b = Some g -> (orchestrated b = true <-> In b ["orch:dace:cpu:IJK"; "orch:dace:cpu:KIJ"; "orch:dace:cpu:KJI"; "orch:dace:gpu:KJI"]%string).
Proof.
  intros b g E.
  assert (I : In b (map fst backend_table)).
  { revert E. unfold as_gt4py. generalize backend_table as d. clear. induction d as [|[k v] d IH]; [discriminate|]. cbn. destruct (String.eqb_spec b k) as [->|]; [auto|intros E; right; auto]. }
  cbn [backend_table map fst In] in I. repeat destruct I as [<-|I]; try contradiction; (split; intros H; [try discriminate H; cbn; tauto|try reflexivity; exfalso; cbn in H; repeat destruct H as [H|H]; discriminate || contradiction]).
Qed.
Print Assumptions C140_orchestrated.
(** Settings under which programs are built where they belong. *)
Definition at_home (s : settings) (p : path) : Prop := forall name, built_in s name = home (root_path s) p name.
Lemma at_home_folder s p : at_home s p <-> build_folder s = (root_path s ++ "/.gt_cache_" ++ path_name p ++ "/dacecache")%string.
Proof.
  unfold at_home, built_in. split.
  - intros H. specialize (H ""%string). rewrite home_is in H. unfold sdfg_dir in H.
    assert (E : (build_folder s ++ "/" = (root_path s ++ "/.gt_cache_" ++ path_name p ++ "/dacecache") ++ "/")%string).
    { change "/"%string with ("/" ++ "")%string at 1. rewrite H. rewrite !append_assoc. reflexivity. }
    revert E. generalize (build_folder s) (root_path s ++ "/.gt_cache_" ++ path_name p ++ "/dacecache")%string.
    induction s0 as [|x a IH]; destruct s0 as [|y b]; cbn; intros E; try reflexivity; try discriminate.
    + injection E as <- E. destruct b; discriminate.
    + injection E as -> E. destruct a; discriminate.
    + injection E as -> E. f_equal. auto.
  - intros -> name. rewrite home_is. unfold sdfg_dir. rewrite !append_assoc. reflexivity.
Qed.

(** A DaceConfig of an orchestrated backend that is made: its programs are then built where they belong, which is where get_sdfg_path looks for them, and
    within the directory in which GT4Py then keeps its stencils. *)
Theorem C140_folder : forall there s comm b nx nz o single s' c, make_dace_config there s comm b nx nz o single = (s', Some c) -> orchestrated b = true ->
  root_path s' = root_path s /\ forall name, built_in s' name = home (root_path s) (d_path c) name /\ built_in s' name = sdfg_dir (root_path s) (d_path c) name /\
    (root_path s' ++ "/" ++ dir_name s' ++ "/dacecache/" ++ name)%string = home (root_path s) (d_path c) name.
Proof.
  intros there s comm b nx nz o single s' c. unfold make_dace_config. destruct (make_dace comm b nx nz o single) as [c'|] eqn:M; [|intros E; discriminate E].
  assert (B : d_backend c' = b).
  { revert M. unfold make_dace. destruct (as_gt4py b); [|discriminate]. cbn [bind]. destruct comm as [[[r n] l]|]; [destruct (identify_code_path l r single); [|discriminate]; cbn [bind]|]; intros [= <-]; reflexivity. }
  unfold set_distributed_caches. rewrite B. intros E O. rewrite O in E. cbn [negb andb] in E.
  revert E. destruct (_ && _); intros E; [discriminate E|]. injection E as <- <-.
  split; [reflexivity|]. intros name. rewrite home_is. assert (X : forall x y z : string, x = y -> z = y -> x = y /\ x = y /\ z = y) by auto. apply X; [|reflexivity].
  unfold built_in, sdfg_dir, set_build_folder, get_cache_directory. cbn [root_path dir_name build_folder]. rewrite !append_assoc. reflexivity.
Qed.
Print Assumptions C140_folder.

(** Two ranks with the same root build a program in the same folder exactly if they have the same code path. *)
Theorem C140_ranks : forall there there' s1 s2 comm1 comm2 b1 b2 nx1 nx2 nz1 nz2 o1 o2 single1 single2 s1' s2' c1 c2 name,
  make_dace_config there s1 comm1 b1 nx1 nz1 o1 single1 = (s1', Some c1) -> make_dace_config there' s2 comm2 b2 nx2 nz2 o2 single2 = (s2', Some c2) ->
  orchestrated b1 = true -> orchestrated b2 = true -> root_path s1 = root_path s2 -> (built_in s1' name = built_in s2' name <-> d_path c1 = d_path c2).
Proof.
  intros until name. intros M1 M2 O1 O2 R. destruct (C140_folder _ _ _ _ _ _ _ _ _ _ M1 O1) as (_ & H1). destruct (C140_folder _ _ _ _ _ _ _ _ _ _ M2 O2) as (_ & H2).
  destruct (H1 name) as (_ & -> & _). destruct (H2 name) as (_ & -> & _). rewrite R. split; [|intros ->; reflexivity]. intros E. now apply C106_directories in E.
Qed.
Print Assumptions C140_ranks.

(** Without orchestration and without being forced the settings stay as they are, and there is no error. *)
Theorem C140_not_orchestrated : forall there s c, orchestrated (d_backend c) = false -> set_distributed_caches there s c false = (s, false).
Proof. intros there s c O. unfold set_distributed_caches. now rewrite O. Qed.
(** With orchestration it is refused exactly in Run mode when the directory of the code path is missing, and then nothing has changed. *)
Theorem C140_refused : forall there s c, orchestrated (d_backend c) = true ->
  (snd (set_distributed_caches there s c false) = true <-> d_orch c = ORun /\ there (root_path s ++ "/.gt_cache_" ++ path_name (d_path c))%string = false) /\
  (snd (set_distributed_caches there s c false) = true -> fst (set_distributed_caches there s c false) = s).
Proof.
  intros there s c O. unfold set_distributed_caches, get_cache_fullpath. rewrite O. cbn [negb andb].
  destruct (d_orch c); cbn [is_run negb andb]; [| |destruct (there _)]; cbn; repeat split; try discriminate; try tauto; intros [? ?]; discriminate.
Qed.
(** Forced, it is never refused, whatever the backend and mode, and programs are built where they belong. *)
Theorem C140_forced : forall there s c, snd (set_distributed_caches there s c true) = false /\
  forall name, built_in (fst (set_distributed_caches there s c true)) name = home (root_path s) (d_path c) name.
Proof.
  intros there s c. unfold set_distributed_caches. rewrite !andb_false_r. cbn [fst snd andb]. split; [reflexivity|]. intros name. rewrite home_is.
  unfold built_in, sdfg_dir, set_build_folder, get_cache_directory. cbn [root_path dir_name build_folder]. rewrite !append_assoc. reflexivity.
Qed.
Print Assumptions C140_not_orchestrated.
Print Assumptions C140_refused.
Print Assumptions C140_forced.

(** ** what happens later in the process *)
(** the settings of a code path: directory and build folder *)
Definition belongs (s : settings) (p : path) : Prop :=
  dir_name s = (".gt_cache_" ++ path_name p)%string /\ build_folder s = (root_path s ++ "/.gt_cache_" ++ path_name p ++ "/dacecache")%string.
Lemma set_caches_belongs there s c p : belongs s p -> (orchestrated (d_backend c) = false \/ d_path c = p) ->
  belongs (fst (set_distributed_caches there s c false)) p /\ root_path (fst (set_distributed_caches there s c false)) = root_path s.
Proof.
  intros H D. unfold set_distributed_caches. destruct (orchestrated (d_backend c)) eqn:O; [|split; [exact H|reflexivity]].
  destruct D as [D|<-]; [discriminate|]. cbn [negb andb]. destruct (_ && _); [split; [exact H|reflexivity]|]. cbn. repeat split.
Qed.
Lemma make_dace_belongs there s comm b nx nz o single p : belongs s p -> (orchestrated b = false \/ (forall c, make_dace comm b nx nz o single = Some c -> d_path c = p)) ->
  belongs (fst (make_dace_config there s comm b nx nz o single)) p /\ root_path (fst (make_dace_config there s comm b nx nz o single)) = root_path s.
Proof.
  intros H D. unfold make_dace_config. destruct (make_dace comm b nx nz o single) as [c|] eqn:M; [|split; [exact H|reflexivity]].
  assert (B : d_backend c = b).
  { revert M. unfold make_dace. destruct (as_gt4py b); [|discriminate]. cbn [bind]. destruct comm as [[[r n] l]|]; [destruct (identify_code_path l r single); [|discriminate]; cbn [bind]|]; intros [= <-]; reflexivity. }
  assert (D' : orchestrated (d_backend c) = false \/ d_path c = p) by (rewrite B; destruct D as [D|D]; auto).
  generalize (set_caches_belongs there s c p H D'). destruct (set_distributed_caches there s c false) as [s' f]. auto.
Qed.
Lemma happen_belongs there s e p : belongs s p -> harmless p e -> belongs (happen there s e) p /\ root_path (happen there s e) = root_path s.
Proof.
  intros H N. destruct e as [comm b nx nz o single|comm m minimal|b given|b]; cbn [happen harmless] in *.
  - now apply make_dace_belongs.
  - unfold make_compilation_config. destruct comm as [[[r n] l]|]; [|split; [exact H|reflexivity]]. destruct N as [N|N]; [discriminate|]. destruct m; try (split; [exact H|reflexivity]). congruence.
  - destruct given; [split; [exact H|reflexivity]|]. apply make_dace_belongs; [exact H|]. destruct N as [N|[N|N]]; [discriminate|now left|right].
    intros c. unfold make_dace. destruct (as_gt4py b); [|discriminate]. cbn [bind]. intros [= <-]. now rewrite N.
  - destruct (uses_dace b); [|split; [exact H|reflexivity]]. destruct H as (H1 & H2). split; [|reflexivity]. split; [exact H1|]. unfold set_build_folder. cbn [root_path build_folder]. rewrite H1. reflexivity.
Qed.
(** After a DaceConfig of an orchestrated backend the folder stays that of its code path through all stencils and all configurations that are harmless for it (FolderModel.v), in any number and order.
    Missing from the full statement: other configurations; it is false of them (C140_taken_refuted, C140_default_refuted). *)
Theorem C140_kept_partial : forall there s comm b nx nz o single s' c later, make_dace_config there s comm b nx nz o single = (s', Some c) -> orchestrated b = true ->
  Forall (harmless (d_path c)) later -> forall name, built_in (history there s' later) name = home (root_path s) (d_path c) name.
Proof.
  intros there s comm b nx nz o single s' c later M O F name. destruct (C140_folder _ _ _ _ _ _ _ _ _ _ M O) as (R & H).
  assert (B : belongs s' (d_path c)).
  { split.
    - revert M. unfold make_dace_config. destruct (make_dace comm b nx nz o single) as [c'|] eqn:M; [|intros E; discriminate E]. unfold set_distributed_caches.
      assert (B : d_backend c' = b).
      { revert M. unfold make_dace. destruct (as_gt4py b); [|discriminate]. cbn [bind]. destruct comm as [[[r n] l]|]; [destruct (identify_code_path l r single); [|discriminate]; cbn [bind]|]; intros [= <-]; reflexivity. }
      rewrite B, O. cbn [negb andb]. destruct (_ && _); [intros E; discriminate E|]. intros [= <- <-]. reflexivity.
    - apply at_home_folder. intros n. rewrite R. apply H. }
  clear H M. rewrite <- R. revert s' B R F. induction later as [|e l IH]; intros s' B R F.
  - cbn. destruct B as (_ & B). apply (proj2 (at_home_folder s' (d_path c)) B).
  - inversion F as [|? ? F1 F2]; subst. destruct (happen_belongs there s' e _ B F1) as (B' & R'). cbn [history fold_left]. rewrite <- R'. apply IH; [exact B'|congruence|exact F2].
Qed.
Print Assumptions C140_kept_partial.

(** The full statement is false.  A rank in a corner of a 2 by 2 layout that makes its DaceConfig and then a StencilConfig of the same backend without handing the DaceConfig over, or a second DaceConfig
    without communicator: what it then builds under the first goes into the folder of "FV3_A", and loading it (orchestration.py 350-359) is an error. *)
Definition fresh : settings := Settings "/scratch" ".gt_cache" ".dacecache".
Definition corner : dconfig := mkD "orch:dace:cpu:IJK" OBuildAndRun 0 24 (2, 2) (24, 24, 79) BottomLeft true false.
Theorem C140_default_refuted : exists there s comm b nx nz o single s' c name, make_dace_config there s comm b nx nz o single = (s', Some c) /\ orchestrated b = true /\ d_compile c = true /\
  let s'' := history there s' [EConfig b false; EStencil b] in
  built_in s'' name <> home (root_path s) (d_path c) name /\ built_in s'' name = home (root_path s) All name /\
  (forall files, get_sdfg_path (root_path s) [(built_in s'' name, Info (d_backend c) (d_layout c) (d_resolution c))] files name c None true = Error).
Proof.
  exists (fun _ => true), fresh, (Some (0, 24, (2, 2))), "orch:dace:cpu:IJK"%string, 24, 79, OBuildAndRun, false, (Settings "/scratch" ".gt_cache_FV3_BL" "/scratch/.gt_cache_FV3_BL/dacecache"), corner, "step"%string.
  split; [reflexivity|]. split; [reflexivity|]. split; [reflexivity|]. cbv zeta. split; [discriminate|]. split; reflexivity.
Qed.
(** The other way round: with a CompilationConfig in Run mode and a stencil made after it, the folder is that of the rank. *)
Theorem C140_taken_refuted : exists there s comm b nx nz o single s' c name, make_dace_config there s comm b nx nz o single = (s', Some c) /\ orchestrated b = true /\
  built_in (history there s' [ECompile comm Run false; EStencil b]) name <> home (root_path s) (d_path c) name /\
  built_in (history there s' [ECompile comm Run false; EStencil b]) name = "/scratch/.gt_cache_000000/dacecache/step"%string.
Proof.
  exists (fun _ => true), fresh, (Some (0, 24, (2, 2))), "orch:dace:cpu:IJK"%string, 24, 79, OBuildAndRun, false, (Settings "/scratch" ".gt_cache_FV3_BL" "/scratch/.gt_cache_FV3_BL/dacecache"), corner, "step"%string.
  split; [reflexivity|]. split; [reflexivity|]. split; [discriminate|]. reflexivity.
Qed.
Print Assumptions C140_default_refuted.
Print Assumptions C140_taken_refuted.

(** a rank of the upper edge of a 3 by 3 layout; then stencils, a StencilConfig with the DaceConfig handed over, a DaceConfig without orchestration and a CompilationConfig that builds *)
Example C140_case :
  let later := [EStencil "orch:dace:cpu:IJK"; EConfig "orch:dace:cpu:IJK" true; EDace None "st:dace:cpu:IJK" 1 1 OBuild false; ECompile (Some (7, 54, (3, 3))) BuildAndRun true; EStencil "st:dace:cpu:IJK"]%string in
  exists s' c, make_dace_config (fun _ => false) fresh (Some (7, 54, (3, 3))) "orch:dace:cpu:IJK" 24 79 OBuildAndRun false = (s', Some c) /\ Forall (harmless (d_path c)) later /\
    built_in (history (fun _ => false) s' later) "step" = "/scratch/.gt_cache_FV3_T/dacecache/step"%string.
Proof.
  cbv zeta. eexists _, _. split; [reflexivity|]. split; [|reflexivity]. cbn [d_path].
  repeat (apply Forall_cons; [cbn; first [exact I | now left | right; discriminate]|]). apply Forall_nil.
Qed.
Example C140_case2 : snd (set_distributed_caches (fun _ => false) fresh (mkD "orch:dace:cpu:IJK" ORun 0 24 (2, 2) (24, 24, 79) BottomLeft true false) false) = true.
Proof. reflexivity. Qed.
