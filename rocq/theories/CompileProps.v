(** Property theorems C29 (one compiling rank per code path), C30 (run mode), C31 (handshake), C32 (configuration equality)
    and C53 (configuration dictionaries).  Model and specification ([edges], [step], [finished]): CompileModel.v. *)
From Coq Require Import QArith.
From Verif Require Import Base Dict PartModel CompileModel CompileProofs.
Open Scope Z_scope.

(** C29.  On the 1x1 layout, square layouts and layouts of two rows or two columns, the code path of every rank of the cubed
    sphere is compiled by exactly one rank.  Missing: the other rectangular layouts, for which it fails (below). *)
Theorem C29_one_compiler_partial : forall ly lx rank,
  (ly = 1 /\ lx = 1) \/ (2 <= ly /\ 2 <= lx /\ (ly = lx \/ ly = 2 \/ lx = 2)) -> 0 <= rank < 6 * (ly * lx) ->
  exists! c, 0 <= c < 6 * (ly * lx) /\ compiles (ly, lx) c false = true /\
             identify_code_path (ly, lx) c false = identify_code_path (ly, lx) rank false.
Proof. exact one_compiler_all. Qed.
Print Assumptions C29_one_compiler_partial.

(** With a single code path (any layout), rank 0 compiles for all. *)
Theorem C29_single_code_path : forall l rank size, 0 <= rank < size ->
  exists! c, 0 <= c < size /\ compiles l c true = true /\ identify_code_path l c true = identify_code_path l rank true.
Proof. exact single_compiler. Qed.
Print Assumptions C29_single_code_path.

Example C29_case :
  map (fun r => compiles (4, 4) r false) (zrange 0 18) =
    [true; true; false; true; true; true; false; true; false; false; false; false; true; true; false; true; false; false] /\
  identify_code_path (4, 4) 76 false = Some TopLeft /\ identify_code_path (4, 4) (12) false = Some TopLeft /\
  identify_code_path (4, 4) (16 * 4 + 11) false = Some Right.
Proof. vm_compute. auto. Qed.

(** C29 fails for every accepted layout of at least three rows and columns that is not square: no rank compiles the code
    of the right edge, although there are such ranks.  (_smallest_rank_right and _smallest_rank_top take layout[0], the
    number of rows, for the number of columns and vice versa.) *)
Theorem C29_rectangular_refuted : forall ly lx, 3 <= ly -> 3 <= lx -> ly <> lx ->
  exists rank, 0 <= rank < 6 * (ly * lx) /\ identify_code_path (ly, lx) rank false = Some Right /\
    forall c, compiles (ly, lx) c false = true -> identify_code_path (ly, lx) c false <> Some Right.
Proof.
  intros ly lx H1 H2 N. exists (1 * lx + (lx - 1)). split; [nia|]. split; [apply some_right; auto|]. intros c. apply no_right; auto.
Qed.
Print Assumptions C29_rectangular_refuted.

(** C30.  In run mode every rank of an n x n layout reads the code of a rank of the min(n,3) x min(n,3) layout which
    touches exactly the same edges of its tile. *)
Theorem C30_equivalent_rank : forall n rank, 1 <= n ->
  exists e, compiling_equivalent Run (n, n) rank = Some e /\ 0 <= e < Z.min n 3 * Z.min n 3 /\
            edges (Z.min n 3, Z.min n 3) e = edges (n, n) rank.
Proof. exact equivalent_ok. Qed.
Print Assumptions C30_equivalent_rank.

Example C30_case : compiling_equivalent Run (5, 5) (25 * 3 + 14) = Some 5 /\ edges (5, 5) (25 * 3 + 14) = (false, false, false, true) /\
  edges (3, 3) 5 = (false, false, false, true) /\ edges (2, 2) 2 = (false, true, true, false).
Proof. vm_compute. auto. Qed.

(** C31.  On a cubed sphere with T ranks per tile, for any number of stencils, with sends that may block until received:
    each compiling rank is one of the first T ranks; per stencil every other rank posts one receive, from the rank at its
    place on tile 0; no execution gets stuck before all sends and receives are done, and none goes on forever. *)
Theorem C31_handshake : forall l m nstencils, 1 <= tile_ranks l -> m <> Run ->
  let T := tile_ranks l in
  let e := fun r => r mod T in
  let start := fun r => times nstencils (handshake e (6 * T) r) in
  (forall r, compiling_equivalent m l r = Some (e r)) /\
  (forall r, T <= r < 6 * T -> handshake e (6 * T) r = [Recv (e r)]) /\
  (forall c, 0 <= c < T -> Forall2 (fun a t => exists q, a = Send q /\ (q == inject_Z (t * T + c))%Q) (handshake e (6 * T) c) [1; 2; 3; 4; 5]) /\
  (forall n p, steps (6 * T) n start p -> finished (6 * T) p \/ exists p', step (6 * T) p p') /\
  (exists bound, forall n p, steps (6 * T) n start p -> (n <= bound)%nat).
Proof.
  intros l m ns HT Hm T e start. split; [|split; [|split; [|split]]].
  - intros r. apply equivalent_build; auto.
  - intros r Hr. apply (handshake_waiting T HT r Hr).
  - intros c Hc. change e with (eqv T). rewrite (handshake_compiling T c Hc). change (zrange 1 6) with [1; 2; 3; 4; 5]. cbn [map].
    repeat constructor; (eexists; split; [reflexivity|apply dest_eq]).
  - intros n p S. apply (handshake_ok T HT ns n p S).
  - exists (total T start). intros n p S. pose proof (proj2 (handshake_ok T HT ns n p S)) as B. fold start in B. change (fun r => times ns (handshake (eqv T) (6 * T) r)) with start in B. lia.
Qed.
Print Assumptions C31_handshake.

Example C31_case : exists p, steps 6 5 (fun r => times 1 (handshake (fun r => r mod 1) 6 r)) p.
Proof.
  eexists.
  eapply S_step; [eapply (Step _ _ 0 1); [lia|lia|lia|vm_compute; reflexivity|vm_compute; reflexivity|reflexivity]|].
  eapply S_step; [eapply (Step _ _ 0 2); [lia|lia|lia|vm_compute; reflexivity|vm_compute; reflexivity|reflexivity]|].
  eapply S_step; [eapply (Step _ _ 0 3); [lia|lia|lia|vm_compute; reflexivity|vm_compute; reflexivity|reflexivity]|].
  eapply S_step; [eapply (Step _ _ 0 4); [lia|lia|lia|vm_compute; reflexivity|vm_compute; reflexivity|reflexivity]|].
  eapply S_step; [eapply (Step _ _ 0 5); [lia|lia|lia|vm_compute; reflexivity|vm_compute; reflexivity|reflexivity]|].
  apply S_refl.
Qed.

(** C31 fails on a single tile of 36 ranks (a multiple of six): six ranks compile, all others wait for a message from
    themselves, and nothing can happen. *)
Theorem C31_single_tile_refuted : exists l p, tile_ranks l = 36 /\
  (forall r, compiling_equivalent BuildAndRun l r = Some (r mod 36)) /\ p = (fun r => handshake (fun r => r mod 36) 36 r) /\
  ~ finished 36 p /\ forall p', ~ step 36 p p'.
Proof.
  exists (6, 6). eexists. split; [reflexivity|]. split; [intros r; reflexivity|]. split; [reflexivity|]. split.
  - intros F. specialize (F 7 ltac:(lia)). vm_compute in F. discriminate.
  - intros p' S. inversion S as [c d q lc ld Hc Hd N Pc Pd Q]; subst. unfold handshake in Pd.
    destruct (rank_is_compiling d 36); cbn in Pd; [discriminate|]. injection Pd as E _. rewrite Z.mod_small in E by lia. lia.
Qed.
Print Assumptions C31_single_tile_refuted.

(** C32.  With a collision-free md5, stencil configurations are equal exactly if they have the same gt4py backend and the
    same NUMBER of zero bytes hashed, i.e. the same sum of the six flags and the run mode's number.  So equality implies
    agreement in the gt4py backend only; the property as stated fails (below). *)
Theorem C32_equality_partial : forall md5 b1 g1 c1 n1 b2 g2 c2 n2, (forall x y, md5 x = md5 y -> x = y) ->
  as_gt4py b1 = Some g1 -> as_gt4py b2 = Some g2 ->
  config_eq md5 g1 c1 n1 g2 c2 n2 = true <-> g1 = g2 /\ weight c1 n1 = weight c2 n2.
Proof. exact equal_configs. Qed.
Print Assumptions C32_equality_partial.

(** C32 fails whatever md5 is: configurations differing in rebuild and validate_args, in the run mode, or in being
    orchestrated or not, compare equal. *)
Theorem C32_refuted : exists c1 c2 c3 c4,
  make_config "st:dace:cpu:IJK" true false false false BuildAndRun false None = Some c1 /\
  make_config "st:dace:cpu:IJK" false true false false BuildAndRun false None = Some c2 /\
  make_config "st:dace:cpu:IJK" false false false false Run false None = Some c3 /\
  make_config "orch:dace:cpu:IJK" true false false false BuildAndRun false None = Some c4 /\
  as_gt4py "st:dace:cpu:IJK" = as_gt4py "orch:dace:cpu:IJK" /\
  forall md5 g, config_eq md5 g c1 false g c2 false = true /\ config_eq md5 g c1 false g c3 false = true /\ config_eq md5 g c1 false g c4 false = true.
Proof.
  do 4 eexists. repeat (split; [vm_compute; reflexivity|]). intros md5 g. unfold config_eq. rewrite !hashed_eq. cbn. now rewrite Z.eqb_refl.
Qed.
Print Assumptions C32_refuted.
Example C32_case : as_gt4py "st:gt:gpu:KJI" = Some "gt:gpu"%string /\
  hashed "gt:gpu" (mkC "st:gt:gpu:KJI" true true false true Run false 1 1 1 true) true = encode "gt:gpu" ++ zeros 6.
Proof. vm_compute. auto. Qed.

(** C53.  A compilation configuration made without communicator is restored exactly by from_dict(as_dict()).  Missing: with
    a communicator, and DaceConfig — refuted below. *)
Theorem C53_compilation_partial : forall b reb va fs ds m min c, make_config b reb va fs ds m min None = Some c -> from_dict (as_dict c) = Some c.
Proof. exact round_trip. Qed.
Print Assumptions C53_compilation_partial.
Example C53_case : exists c, make_config "orch:dace:gpu:KJI" false true true true Run true None = Some c /\ get (as_dict c) "run_mode" = Some (PStr "Run").
Proof. eexists. split; vm_compute; reflexivity. Qed.

(** Entries may be left out of the dictionary: those not there stand for the defaults. *)
Definition defaults : dict pyval := [
  ("backend", PStr "st:python:cpu:IJK"); ("rebuild", PBool false); ("validate_args", PBool true); ("format_source", PBool false);
  ("device_sync", PBool false); ("run_mode", PStr "BuildAndRun"); ("use_minimal_caching", PBool false)]%string.
Theorem C53_defaults : forall b reb va fs ds m min c d, make_config b reb va fs ds m min None = Some c ->
  (forall k, In k (keys defaults) -> get d k = get (as_dict c) k \/ get d k = None /\ get (as_dict c) k = get defaults k) ->
  from_dict d = Some c.
Proof.
  intros b reb va fs ds m min c d M K. pose proof (round_trip _ _ _ _ _ _ _ _ M) as R.
  assert (S : forall k x, In k (keys defaults) -> get defaults k = Some (PStr x) -> get_str d k x = get_str (as_dict c) k x).
  { intros k x I D. unfold get_str. destruct (K k I) as [->|[-> E]]; [reflexivity|]. now rewrite E, D. }
  assert (B : forall k x, In k (keys defaults) -> get defaults k = Some (PBool x) -> get_bool d k x = get_bool (as_dict c) k x).
  { intros k x I D. unfold get_bool. destruct (K k I) as [->|[-> E]]; [reflexivity|]. now rewrite E, D. }
  rewrite <- R. unfold from_dict.
  rewrite (S "backend"%string), (B "rebuild"%string), (B "validate_args"%string), (B "format_source"%string), (B "device_sync"%string),
    (S "run_mode"%string), (B "use_minimal_caching"%string) by (cbn; tauto). reflexivity.
Qed.
Print Assumptions C53_defaults.
Example C53_defaults_case : exists c, make_config "st:numpy:cpu:IJK" true true false false BuildAndRun false None = Some c /\
  from_dict [("rebuild", PBool true); ("backend", PStr "st:numpy:cpu:IJK")]%string = Some c.
Proof. eexists. split; vm_compute; reflexivity. Qed.

(** A configuration that synchronises the device is made for the known backends with "gpu" in their name, and for no others. *)
Theorem C53_device_sync : forall b reb va fs m min, make_config b reb va fs true m min None <> None <->
  as_gt4py b <> None /\ String.index 0 ":gpu:" b <> None.
Proof.
  intros b reb va fs m min. unfold make_config. destruct (as_gt4py b) as [g|] eqn:G; cbn [bind]; [|tauto].
  assert (E : is_gpu b = match String.index 0 ":gpu:" b with Some _ => true | None => false end).
  { unfold as_gt4py in G. apply get_in in G. unfold backend_table in G.
    repeat (destruct G as [G|G]; [injection G as <- _; vm_compute; reflexivity|]). destruct G. }
  rewrite E. destruct (String.index 0 ":gpu:" b); cbn; intuition discriminate.
Qed.
Print Assumptions C53_device_sync.
Example C53_device_sync_case : make_config "st:gt:gpu:KJI" false true false true Run false None <> None /\
  make_config "st:gt:cpu:KJI" false true false true Run false None = None.
Proof. vm_compute. split; [discriminate|reflexivity]. Qed.

(** Made with a communicator, the restored configuration has another rank and compiling rank. *)
Theorem C53_communicator_refuted : exists c c', make_config "st:numpy:cpu:IJK" true true false false BuildAndRun true (Some (20, 24, (2, 2))) = Some c /\
  from_dict (as_dict c) = Some c' /\ (c_rank c, c_size c, c_equivalent c, c_compiling c) = (20, 24, 0, false) /\
  (c_rank c', c_size c', c_equivalent c', c_compiling c') = (1, 1, 1, true).
Proof. do 2 eexists. repeat (split; [vm_compute; reflexivity|]). vm_compute. auto. Qed.
Print Assumptions C53_communicator_refuted.

(** A DaceConfig made without communicator and without the single code path is restored exactly; made with one, its backend, mode,
    rank, size, layout and resolution are. *)
Theorem C53_dace_partial : forall comm b nx nz o single c, make_dace comm b nx nz o single = Some c ->
  exists c', d_from_dict (d_as_dict c) = Some c' /\ d_backend c' = b /\ d_orch c' = o /\
    (d_rank c', d_size c', d_layout c') = match comm with Some (rank, size, l) => (rank, size, l) | None => (0, 1, (1, 1)) end /\
    d_resolution c' = (nx, nx, nz) /\ (comm = None -> single = false -> c' = c).
Proof.
  intros comm b nx nz o single c H. unfold make_dace in H. destruct (as_gt4py b) as [g|] eqn:G; [|discriminate]. cbn [bind] in H.
  unfold d_from_dict, make_dace. destruct comm as [[[rank size] l]|].
  - destruct (identify_code_path l rank single) as [p|]; [|discriminate]. cbn [bind] in H. injection H as <-. cbn [d_as_dict d_orch d_backend d_rank d_size d_layout d_resolution].
    rewrite G. cbn [bind]. eexists; split; [reflexivity|]. repeat split. discriminate.
  - injection H as <-. cbn [d_as_dict d_orch d_backend d_rank d_size d_layout d_resolution].
    rewrite G. cbn [bind]. eexists; split; [reflexivity|]. repeat split. intros _ ->. reflexivity.
Qed.
Print Assumptions C53_dace_partial.
(** A DaceConfig made without a communicator is that of one process with the whole tile, which compiles and runs every code path. *)
Theorem C53_dace_alone : forall b nx nz o single c, make_dace None b nx nz o single = Some c ->
  d_path c = All /\ d_compile c = true /\ (d_rank c, d_size c, d_layout c) = (0, 1, (1, 1)) /\ d_backend c = b /\ d_orch c = o /\ d_resolution c = (nx, nx, nz).
Proof. intros b nx nz o single c H. unfold make_dace in H. destruct (as_gt4py b); [|discriminate]. injection H as <-. now repeat split. Qed.
Print Assumptions C53_dace_alone.

(** A DaceConfig restored from its dictionary has the original rank and layout, but the code path "All" and compiles on
    every rank: here rank 5 of 24, which has the code path BottomRight of another tile and does not compile. *)
Theorem C53_dace_refuted : exists c c', make_dace (Some (5, 24, (2, 2))) "orch:dace:cpu:IJK" 12 79 ORun false = Some c /\
  d_from_dict (d_as_dict c) = Some c' /\ d_rank c' = d_rank c /\ d_layout c' = d_layout c /\
  (d_path c, d_compile c) = (BottomRight, false) /\ (d_path c', d_compile c') = (All, true).
Proof. do 2 eexists. repeat (split; [vm_compute; reflexivity|]). vm_compute. auto. Qed.
Print Assumptions C53_dace_refuted.
