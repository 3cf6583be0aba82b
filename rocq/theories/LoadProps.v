(** C106: loading compiled programs. *)
From Coq Require Import QArith.
From Verif Require Import Base Dict PartModel CompileModel CompileProofs LoadModel.
Open Scope Z_scope.

(** ** directories *)
Lemma append_inj_l (a b c : string) : (a ++ b = a ++ c -> b = c)%string.
Proof. induction a as [|x a IH]; cbn; [auto|]. intros [= E]. auto. Qed.
(** The directories of different code paths or programs are different. *)
Theorem C106_directories : forall root p p' name name', sdfg_dir root p name = sdfg_dir root p' name' -> p = p' /\ name = name'.
Proof.
  intros root p p' name name' E. unfold sdfg_dir in E. apply append_inj_l in E. apply append_inj_l in E.
  destruct p, p'; cbn in E; try discriminate E; (split; [reflexivity|]); injection E as E; exact E.
Qed.
Print Assumptions C106_directories.

Lemma disk_is root builds name p :
  get (disk_after root builds) (sdfg_dir root p name) = option_map (fun c => Info (d_backend c) (d_layout c) (d_resolution c)) (last_build builds name p).
Proof.
  induction builds as [|[n c] l IH]; [reflexivity|]. cbn [disk_after last_build]. unfold write_build_info. rewrite get_put.
  destruct (String.eqb_spec (sdfg_dir root p name) (sdfg_dir root (d_path c) n)) as [E|E].
  - apply C106_directories in E. destruct E as [-> ->]. rewrite String.eqb_refl. destruct (path_eq_dec _ _); [reflexivity|contradiction].
  - rewrite IH. destruct (String.eqb_spec n name) as [->|]; [|reflexivity]. destruct (path_eq_dec (d_path c) p) as [<-|]; [contradiction|reflexivity].
Qed.

(** ** what is loaded *)
Section Loads.
Variables (root : string) (builds : list (string * dconfig)) (files : list string).
Local Notation load := (get_sdfg_path root (disk_after root builds) files).

(** What is loaded was built last under this name and for the rank's code path, by the same backend, with the same number of tile
    columns for each row of ranks.  Missing from the full statement: the same share of the tile, and the same number of levels. *)
Theorem C106_loaded_partial : forall name c override p, load name c None override = Path p ->
  (override = true \/ d_orch c = ORun) /\ p = sdfg_dir root (d_path c) name /\
  exists b, last_build builds name (d_path c) = Some b /\ d_path b = d_path c /\ d_backend b = d_backend c /\ fst (d_layout b) <> 0 /\ fst (d_layout c) <> 0 /\
    nx (d_resolution b) * fst (d_layout c) = nx (d_resolution c) * fst (d_layout b).
Proof.
  intros name c override p. unfold get_sdfg_path. rewrite disk_is.
  assert (O : negb override && negb (is_run (d_orch c)) = false -> override = true \/ d_orch c = ORun).
  { destruct override; [now left|]. destruct (d_orch c); try discriminate. now right. }
  destruct (negb override && negb (is_run (d_orch c))); [discriminate|]. specialize (O eq_refl).
  destruct (last_build builds name (d_path c)) as [b|] eqn:L; [|discriminate]. cbn [option_map i_backend i_layout i_resolution].
  destruct (as_gt4py (d_backend b)); [|discriminate]. destruct (String.eqb_spec (d_backend c) (d_backend b)) as [E|]; [|discriminate]. cbn [negb]. unfold ratio.
  destruct (Z.eqb_spec (fst (d_layout c)) 0) as [|N1]; [discriminate|]. destruct (Z.eqb_spec (fst (d_layout b)) 0) as [|N2]; [discriminate|].
  destruct (Qeq_bool _ _) eqn:Q; [|discriminate]. intros [= <-]. split; [exact O|]. split; [reflexivity|]. exists b. split; [reflexivity|].
  split. { clear -L. induction builds as [|[n x] l IH]; [discriminate|]. cbn in L. destruct (String.eqb n name); [|auto]. destruct (path_eq_dec (d_path x) (d_path c)); [|auto]. now injection L as <-. }
  split; [auto|]. split; [exact N2|]. split; [exact N1|]. apply Qeq_bool_eq in Q.
  assert (X : (inject_Z (nx (d_resolution c) * fst (d_layout b)) == inject_Z (nx (d_resolution b) * fst (d_layout c)))%Q).
  { rewrite !inject_Z_mult. assert (NZ1 : ~ (inject_Z (fst (d_layout c)) == 0)%Q) by (unfold Qeq; cbn; lia). assert (NZ2 : ~ (inject_Z (fst (d_layout b)) == 0)%Q) by (unfold Qeq; cbn; lia).
    setoid_replace (inject_Z (nx (d_resolution c)) * inject_Z (fst (d_layout b)))%Q with (inject_Z (nx (d_resolution c)) / inject_Z (fst (d_layout c)) * inject_Z (fst (d_layout c)) * inject_Z (fst (d_layout b)))%Q by (field; auto).
    rewrite Q. field. auto. }
  unfold Qeq in X. cbn in X. lia.
Qed.

(** With square layouts, square tiles and the same number of levels, what is loaded was compiled for the rank's share of the tile. *)
Definition square (c : dconfig) : Prop := fst (d_layout c) = snd (d_layout c) /\ nx (d_resolution c) = snd (fst (d_resolution c)).
Theorem C106_share_partial : forall name c override p, load name c None override = Path p -> square c ->
  (forall n b, In (n, b) builds -> square b /\ snd (d_resolution b) = snd (d_resolution c)) ->
  exists b, last_build builds name (d_path c) = Some b /\ same_share b c.
Proof.
  intros name c override p L (S1 & S2) SB. destruct (C106_loaded_partial _ _ _ _ L) as (_ & _ & b & B1 & _ & _ & N2 & N1 & E). exists b. split; [exact B1|].
  assert (I : exists n, In (n, b) builds).
  { clear -B1. induction builds as [|[n x] l IH]; [discriminate|]. cbn in B1. destruct (String.eqb n name); [destruct (path_eq_dec (d_path x) (d_path c))|].
    - injection B1 as <-. exists n. now left.
    - destruct (IH B1) as [m Hm]. exists m. now right.
    - destruct (IH B1) as [m Hm]. exists m. now right. }
  destruct I as [n I]. destruct (SB n b I) as ((T1 & T2) & T3). unfold same_share, share, nx in *.
  destruct (d_resolution b) as [[xb yb] zb], (d_resolution c) as [[xc yc] zc], (d_layout b) as [lb mb], (d_layout c) as [lc mc]. cbn [fst snd] in *. subst.
  assert (NZ1 : ~ (inject_Z mc == 0)%Q) by (unfold Qeq; cbn; lia). assert (NZ2 : ~ (inject_Z mb == 0)%Q) by (unfold Qeq; cbn; lia).
  assert (Q : (inject_Z yb / inject_Z mb == inject_Z yc / inject_Z mc)%Q).
  { assert (X : (inject_Z yb * inject_Z mc == inject_Z yc * inject_Z mb)%Q) by (rewrite <- !inject_Z_mult, E; reflexivity).
    setoid_replace (inject_Z yb / inject_Z mb)%Q with (inject_Z yb * inject_Z mc / (inject_Z mb * inject_Z mc))%Q by (field; auto). rewrite X. field. auto. }
  auto.
Qed.

(** Nothing was built for the code path under this name: an error, not another program. *)
Theorem C106_missing : forall name c override, override = true \/ d_orch c = ORun -> last_build builds name (d_path c) = None -> load name c None override = Error.
Proof.
  intros name c override O L. unfold get_sdfg_path. rewrite disk_is, L. cbn [option_map].
  assert (negb override && negb (is_run (d_orch c)) = false) as -> by (destruct O as [->|E]; [reflexivity|rewrite E; apply andb_false_r]). reflexivity.
Qed.
(** Outside of run mode there is nothing to load. *)
Theorem C106_build_modes : forall name c file, d_orch c <> ORun -> load name c file false = Nothing.
Proof. intros name c file N. unfold get_sdfg_path. destruct (d_orch c); try reflexivity. contradiction. Qed.
End Loads.
Print Assumptions C106_loaded_partial.
Print Assumptions C106_share_partial.
Print Assumptions C106_missing.
Print Assumptions C106_build_modes.

(** ** build, then run *)
Lemma last_build_app a b name p : last_build (a ++ b) name p = match last_build a name p with Some c => Some c | None => last_build b name p end.
Proof. induction a as [|[n c] a IH]; [reflexivity|]. cbn. destruct (String.eqb n name); [destruct (path_eq_dec (d_path c) p)|]; auto. Qed.
Lemma last_build_some l name p c : In (name, c) l -> d_path c = p -> exists b, last_build l name p = Some b /\ In (name, b) l.
Proof.
  intros I P. induction l as [|[n x] l IH]; [contradiction|]. cbn. destruct (String.eqb_spec n name) as [->|N]; [destruct (path_eq_dec (d_path x) p)|].
  - exists x. auto.
  - destruct I as [[= <-]|I]; [congruence|]. destruct (IH I) as (b & B1 & B2). eauto.
  - destruct I as [[= E1 E2]|I]; [congruence|]. destruct (IH I) as (b & B1 & B2). eauto.
Qed.
(** A run on the cubed sphere (layouts as in C29) in which the compiling ranks have built their programs, in any order and over whatever
    was there before: every rank then loads what a rank of this run has built for the rank's own code path and share of the tile. *)
Theorem C106_build_and_run_partial : forall root files ly lx backend tile_nx tile_nz name now old rank c,
  (ly = 1 /\ lx = 1) \/ (2 <= ly /\ 2 <= lx /\ (ly = lx \/ ly = 2 \/ lx = 2)) -> 0 <= rank < 6 * (ly * lx) ->
  let config r := make_dace (Some (r, 6 * (ly * lx), (ly, lx))) backend tile_nx tile_nz OBuildAndRun false in
  (forall n b, In (n, b) now -> exists r, config r = Some b) ->
  (forall r b, 0 <= r < 6 * (ly * lx) -> config r = Some b -> d_compile b = true -> In (name, b) now) ->
  config rank = Some c ->
  get_sdfg_path root (disk_after root (now ++ old)) files name c None true = Path (sdfg_dir root (d_path c) name) /\
  exists b, last_build (now ++ old) name (d_path c) = Some b /\ In (name, b) now /\ d_path b = d_path c /\ same_share b c.
Proof.
  intros root files ly lx backend tile_nx tile_nz name now old rank c LY R config OWN ALL C.
  assert (G : forall r b, config r = Some b -> as_gt4py backend <> None /\ d_backend b = backend /\ d_layout b = (ly, lx) /\ d_resolution b = (tile_nx, tile_nx, tile_nz) /\
    identify_code_path (ly, lx) r false = Some (d_path b) /\ d_compile b = compiles (ly, lx) r false).
  { intros r b. unfold config, make_dace. destruct (as_gt4py backend); [|discriminate]. cbn [bind]. destruct (identify_code_path (ly, lx) r false) as [p|]; [|discriminate]. cbn [bind].
    intros [= <-]. cbn. split; [discriminate|]. auto 6. }
  destruct (G rank c C) as (GB & C1 & C2 & C3 & C4 & _).
  destruct (one_compiler_all ly lx rank LY R) as (k & (K1 & K2 & K3) & _).
  assert (exists b, config k = Some b) as [bk Bk].
  { unfold config, make_dace in *. destruct (as_gt4py backend); [|discriminate]. cbn [bind] in *. rewrite K3, C4. cbn [bind]. eauto. }
  destruct (G k bk Bk) as (_ & _ & _ & _ & P & D). rewrite K3, C4 in P. injection P as P.
  destruct (last_build_some now name (d_path c) bk) as (b & B1 & B2); [apply (ALL k bk K1 Bk); congruence|auto|].
  destruct (OWN _ _ B2) as [r Rb]. destruct (G r b Rb) as (_ & D1 & D2 & D3 & _ & _).
  assert (LB : last_build (now ++ old) name (d_path c) = Some b) by now rewrite last_build_app, B1.
  split.
  - unfold get_sdfg_path. cbn [negb andb]. rewrite disk_is, LB. cbn [option_map i_backend i_layout i_resolution]. rewrite D1, D2, D3, C1, C2, C3, String.eqb_refl.
    destruct (as_gt4py backend); [|contradiction]. cbn [negb]. unfold ratio. cbn [fst]. destruct (Z.eqb_spec ly 0); [lia|].
    rewrite (proj2 (Qeq_bool_iff _ _)) by reflexivity. reflexivity.
  - exists b. split; [exact LB|]. split; [exact B2|]. split.
    + clear -B1. induction now as [|[n x] l IH]; [discriminate|]. cbn in B1. destruct (String.eqb n name); [|auto]. destruct (path_eq_dec (d_path x) (d_path c)); [|auto]. now injection B1 as <-.
    + unfold same_share, share. rewrite D2, D3, C2, C3. split; [reflexivity|]. split; reflexivity.
Qed.
Print Assumptions C106_build_and_run_partial.

(** ** cases and what does not hold *)
Definition program := "step"%string.
Definition run_of (l : layout) (o : orchestration) (n z : Z) : dconfig := mkD "orch:dace:cpu:IJK" o 0 (6 * (fst l * snd l)) l (n, n, z) BottomLeft true false.
Example C106_case : get_sdfg_path "/tmp" (disk_after "/tmp" [(program, run_of (3, 3) OBuild 36 79)]) [] program (run_of (4, 4) ORun 48 79) None false = Path "/tmp/.gt_cache_FV3_BL/dacecache/step".
Proof. vm_compute. reflexivity. Qed.
Example C106_case_refused : get_sdfg_path "/tmp" (disk_after "/tmp" [(program, run_of (3, 3) OBuild 36 79)]) [] program (run_of (4, 4) ORun 36 79) None false = Error.
Proof. vm_compute. reflexivity. Qed.

(** Full statement: what is loaded was compiled for the rank's share of the tile.  Only the number of columns for each row of ranks is
    compared: built for 2 by 2 ranks (6 by 6 points), loaded on 2 by 3 ranks (4 by 6 points). *)
Theorem C106_layout_refuted : ~ (forall root builds name c p, get_sdfg_path root (disk_after root builds) [] name c None false = Path p ->
  (forall n b, In (n, b) builds -> snd (d_resolution b) = snd (d_resolution c)) -> exists b, last_build builds name (d_path c) = Some b /\ same_share b c).
Proof.
  intros X. destruct (X "/tmp"%string [(program, run_of (2, 2) OBuild 12 79)] program (run_of (2, 3) ORun 12 79) "/tmp/.gt_cache_FV3_BL/dacecache/step"%string) as (b & L & E & _); [vm_compute; reflexivity| |].
  - intros n b [[= <- <-]|[]]. reflexivity.
  - vm_compute in L. injection L as <-. vm_compute in E. discriminate E.
Qed.
Print Assumptions C106_layout_refuted.
(** Full statement: ... and for its number of levels.  A program for 79 levels is loaded by a run with 127, on any layout. *)
Theorem C106_levels_refuted : forall root l n z z', fst l <> 0 -> z <> z' ->
  exists b, last_build [(program, run_of l OBuild n z)] program BottomLeft = Some b /\ snd (share b) <> snd (share (run_of l ORun n z')) /\
    get_sdfg_path root (disk_after root [(program, run_of l OBuild n z)]) [] program (run_of l ORun n z') None false = Path (sdfg_dir root BottomLeft program).
Proof.
  intros root [ly lx] n z z' N D. exists (run_of (ly, lx) OBuild n z). split; [reflexivity|]. split; [exact D|].
  unfold get_sdfg_path. rewrite disk_is. cbn [run_of d_orch d_path is_run negb andb]. cbn [last_build]. rewrite String.eqb_refl. cbn [run_of d_path path_eq_dec option_map d_backend d_layout d_resolution i_backend i_layout i_resolution].
  destruct (path_eq_dec BottomLeft BottomLeft); [|contradiction]. cbn [option_map run_of d_backend d_layout d_resolution i_backend i_layout i_resolution].
  replace (as_gt4py "orch:dace:cpu:IJK") with (Some "dace:cpu_kfirst"%string) by reflexivity. rewrite String.eqb_refl. cbn [negb]. unfold ratio, nx. cbn [fst].
  cbn [fst] in N. destruct (Z.eqb_spec ly 0); [contradiction|]. rewrite (proj2 (Qeq_bool_iff _ _)) by reflexivity. reflexivity.
Qed.
Print Assumptions C106_levels_refuted.
(** Full statement: the sizes are compared.  A configuration made without tile_nx (the default is 0) has no sizes: built for any layout, it
    is loaded on any. *)
Theorem C106_sizes_unknown_refuted : exists c c' root p, make_dace (Some (0, 24, (2, 2))) "orch:dace:cpu:IJK" 0 0 OBuild false = Some c /\
  make_dace (Some (0, 54, (3, 3))) "orch:dace:cpu:IJK" 0 0 ORun false = Some c' /\ get_sdfg_path root (disk_after root [(program, c)]) [] program c' None false = Path p.
Proof. do 2 eexists. exists "/tmp"%string. eexists. split; [vm_compute; reflexivity|]. split; [vm_compute; reflexivity|]. vm_compute. reflexivity. Qed.
Print Assumptions C106_sizes_unknown_refuted.

(** A program given as a file is loaded from this file, if it is there, and refused otherwise; what was built before does not matter. *)
Theorem C106_file root d files name c f override r : get_sdfg_path root d files name c (Some f) override = r ->
  (r = Nothing <-> override = false /\ d_orch c <> ORun) /\ (r = Path f \/ r = Nothing \/ r = Error) /\ (r = Path f -> In f files) /\ (In f files -> r <> Error).
Proof.
  unfold get_sdfg_path. intros <-. assert (I : existsb (String.eqb f) files = true <-> In f files).
  { rewrite existsb_exists. split; [intros (x & Ix & E); apply String.eqb_eq in E; now subst|intros Ix; exists f; split; [exact Ix|apply String.eqb_refl]]. }
  destruct override, (d_orch c) eqn:O, (existsb (String.eqb f) files) eqn:E; cbn [negb andb is_run]; intuition (congruence || discriminate || auto).
Qed.
Print Assumptions C106_file.
Example C106_case_file : get_sdfg_path "." [] ["a.sdfg"; "b.sdfg"]%string "p" (mkD "dace:cpu" ORun 0 1 (1, 1) (12, 12, 79) All true false) (Some "b.sdfg"%string) false = Path "b.sdfg".
Proof. reflexivity. Qed.
