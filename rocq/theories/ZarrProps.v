(** C38: the Zarr monitor.  Model in ZarrModel.v; [even_dim], [plane_field], [inside] in DecompSpec.v. *)
From Verif Require Import Base Dict PartModel DecompModel DecompSpec DecompProofs3 NetcdfModel ZarrModel ZarrProofs.
From Coq Require Import QArith.
Open Scope Z_scope.

(** C38 (partial).  Evenly divided tiles.  The array's tile shape, computed from rank 0's extent, is the tile extent.  Whatever writes (time, rank) have reached
    the store, in whatever order, every cell of every tile at every time has exactly one owner rank; the cell holds the value the owner's view has for that
    position if the owner has stored that time, and is untouched otherwise.  In particular, storing a later time changes no earlier one.
    [view_shape r] is the shape of rank r's view.  Missing: uneven decompositions, for which the claim is false (next theorem). *)
Theorem C38_cells_partial : forall rnd, float_like rnd ->
  forall l, 0 < fst l <= 2 ^ 52 /\ 0 < snd l <= 2 ^ 52 ->
  forall (A : Type) dims extent qs (view_shape : Z -> list Z) (view : nat -> Z -> index -> A) es ar,
  plane_field dims extent -> Forall2 (fun de q => even_dim l (fst de) (snd de) q) (combine dims extent) qs ->
  (forall rank, 0 <= rank < cube_ranks l -> subtile_extent rnd l 1 dims extent (rank mod tile_ranks l) = Some (view_shape rank)) ->
  (forall e, In e es -> 0 <= snd e < cube_ranks l) ->
  tile_shape l dims (view_shape 0) = extent /\
  exists ar', write_all rnd l dims (tile_shape l dims (view_shape 0)) view_shape view es ar = Some ar' /\
    forall t tile p, 0 <= tile < 6 -> in_extent extent p ->
    exists r region own, 0 <= r < cube_ranks l /\ tile_index l r = tile /\
      subtile_slice rnd l 1 r dims extent true = Some region /\ inside region p /\
      subtile_slice rnd l 1 r dims extent false = Some own /\ inside own p /\
      (forall r' own', 0 <= r' < cube_ranks l -> tile_index l r' = tile -> subtile_slice rnd l 1 r' dims extent false = Some own' -> inside own' p -> r' = r) /\
      (In (t, r) es -> ar' t tile p = Some (view t r (unshift region p))) /\
      (~ In (t, r) es -> ar' t tile p = ar t tile p).
Proof.
  intros rnd Hr l Hl A dims extent qs vs view es ar HF HE Hs He.
  assert (HT : 0 < tile_ranks l) by (unfold tile_ranks; nia).
  assert (E : tile_shape l dims (vs 0) = extent).
  { eapply (even_global_extent rnd Hr l Hl 1 dims extent qs 0); [reflexivity|lia|apply HF|exact HE|]. apply (Hs 0). unfold cube_ranks. lia. }
  split; [exact E|]. rewrite E. apply (cells_ok rnd Hr l Hl dims extent qs HF HE vs view es ar Hs He).
Qed.
Print Assumptions C38_cells_partial.

(** C38.  No two ranks ever write in the same storage chunk (so concurrent read-modify-write of chunks cannot lose data). *)
Theorem C38_chunks : forall rnd, float_like rnd ->
  forall l, 0 < fst l <= 2 ^ 52 /\ 0 < snd l <= 2 ^ 52 ->
  forall dims extent qs, plane_field dims extent -> Forall2 (fun de q => even_dim l (fst de) (snd de) q) (combine dims extent) qs ->
  forall r1 r2 p1 p2 sl1 sl2,
  0 <= r1 < cube_ranks l -> 0 <= r2 < cube_ranks l -> tile_index l r1 = tile_index l r2 ->
  subtile_slice rnd l 1 r1 dims extent false = Some sl1 -> inside sl1 p1 ->
  subtile_slice rnd l 1 r2 dims extent false = Some sl2 -> inside sl2 p2 ->
  map (fun xc => fst xc / snd xc) (combine p1 (chunk_sizes l dims extent)) = map (fun xc => fst xc / snd xc) (combine p2 (chunk_sizes l dims extent)) ->
  r1 = r2.
Proof. exact chunks_ok. Qed.
Print Assumptions C38_chunks.

(** the same extents on a 2 x 3 layout: 5 levels (interfaces), 4 + 1 rows, 6 columns *)
Example C38_case :
  let dims := [Dim AV true; Dim AJ true; Dim AI false] in let extent := [5; 5; 6] in let l := (2, 3) in
  let vs := fun _ => [5; 3; 2] in let view := fun t r p => (t, r, p) in
  plane_field dims extent /\ Forall2 (fun de q => even_dim l (fst de) (snd de) q) (combine dims extent) [4; 2; 2] /\
  forallb (fun r => match subtile_extent (fun q => q) l 1 dims extent (r mod tile_ranks l) with Some e => list_eqb e (vs r) | None => false end)
    (zrange 0 (cube_ranks l)) = true /\
  chunk_sizes l dims extent = [4; 2; 2] /\
  option_map (fun ar => map (fun p => ar 1%nat 3 p) [[0; 0; 0]; [4; 2; 1]; [1; 4; 5]])
    (write_all (fun q => q) l dims extent vs view [(1%nat, 18); (0%nat, 21); (1%nat, 21); (1%nat, 23)] (fun _ _ _ => None))
  = Some [Some (1%nat, 18, [0; 0; 0]); Some (1%nat, 21, [4; 0; 1]); Some (1%nat, 23, [1; 2; 1])].
Proof.
  split; [repeat split; try reflexivity; [intros [H|[H|[H|[]]]]; discriminate H|repeat constructor; cbn; discriminate]|].
  split; [repeat constructor; cbn; discriminate|]. split; [vm_compute; reflexivity|]. split; vm_compute; reflexivity.
Qed.

(** Full statement: every accepted decomposition.  False for 3 x 1 ranks with 11 rows (the partitioner gives them 4, 3 and 4 rows): rank 0's
    extent makes the array 12 rows, and the slices of a 12-row tile do not fit the ranks' views: rank 1 raises. *)
Theorem C38_uneven_refuted : exists l dims extent (view_shape : Z -> list Z),
  plane_field dims extent /\
  (forall rank, 0 <= rank < tile_ranks l -> subtile_extent (fun q => q) l 1 dims extent rank = Some (view_shape rank)) /\
  tile_shape l dims (view_shape 0) <> extent /\
  forall (A : Type) (view : nat -> Z -> index -> A) ar,
    write_all (fun q => q) l dims (tile_shape l dims (view_shape 0)) view_shape view [(0%nat, 0); (0%nat, 1); (0%nat, 2)] ar = None.
Proof.
  exists (3, 1), [Dim AJ false; Dim AI false], [11; 2], (fun r => if r =? 1 then [3; 2] else [4; 2]). split; [|split; [|split]].
  - repeat split; try reflexivity; [intros [H|[H|[]]]; discriminate H|repeat constructor; cbn; discriminate].
  - intros rank H. unfold tile_ranks in H. cbn [fst snd] in H. assert (rank = 0 \/ rank = 1 \/ rank = 2) as [->|[->| ->]] by lia; vm_compute; reflexivity.
  - vm_compute. discriminate.
  - intros A view ar. vm_compute. reflexivity.
Qed.
Print Assumptions C38_uneven_refuted.

(** C38 (partial), over time.  If all states contain "time" and a variable always comes with the same units, a store raises exactly when the state's names are not those of the
    first accepted state, and each variable's time series is exactly its values in the accepted states, in order.
    Missing: states without "time" and stores that raise half-way (next two theorems). *)
Theorem C38_series_partial : forall (U V : Type) (U_eqb : U -> U -> bool) (units : string -> U) ss,
  (forall u, U_eqb u u = true) ->
  Forall (fun s : dict (U * V) => NoDup (keys s) /\ In "time"%string (keys s) /\ forall n q, get s n = Some q -> n <> "time"%string -> fst q = units n) ss ->
  let '(m, h) := store_all U_eqb ss None [] in
  (forall pre s r post, h = pre ++ (s, r) :: post -> (r = true <-> exists s0, nth_error (accepted post) 0 = Some s0 /\ ~ same_keys s0 s)) /\
  forall s0, nth_error (accepted h) 0 = Some s0 -> forall n, In n (keys s0) ->
    map Some (values m n) = map (fun s => option_map snd (get s n)) (accepted h).
Proof.
  intros U V eqb units ss R F. pose proof (store_all_ok eqb R units ss None [] eq_refl) as S.
  destruct (store_all eqb ss None []) as [m h]. destruct S as [I Ra]; [intros [|? ?] ? ? ?; discriminate|exact F|]. split; [exact Ra|].
  intros s0 E n J. destruct m as [ws|]; cbn [inv] in I; [|rewrite I in E; discriminate E].
  destruct I as (x & r & Ea & _ & _ & _ & G). rewrite Ea in E. cbn in E. injection E as ->. specialize (G n). unfold values. rewrite Ea in *.
  destruct (get ws n) as [w|]; [apply G|contradiction].
Qed.
Print Assumptions C38_series_partial.

Definition snap (t a b : Z) : dict (string * Z) := [("time", ("", t)); ("b", ("K", b)); ("a", ("m", a))]%string.
Example C38_series_case :
  let '(m, h) := store_all String.eqb [snap 1 10 100; [("a", ("m", 0))]%string; snap 2 20 200] None [] in
  map snd h = [false; true; false] /\ map (values m) ["time"; "a"; "b"]%string = [[1; 2]; [10; 20]; [100; 200]].
Proof. vm_compute. auto. Qed.

(** A first state without "time" is accepted, and then no state can be stored any more, not even the same one again. *)
Theorem C38_timeless_refuted : exists s : dict (string * Z), NoDup (keys s) /\
  let '(m, h) := store_all String.eqb [s; s] None [] in
  map snd h = [true; false].
Proof. exists [("a", ("m", 1))]%string. split; [repeat constructor; cbn; tauto|]. vm_compute. reflexivity. Qed.
Print Assumptions C38_timeless_refuted.

(** A store that raises because of the units of one variable has already appended the variables before it: from then on index i of one variable and
    index i of another come from different states. *)
Theorem C38_failed_store_refuted : exists s1 s2 s3 : dict (string * Z),
  let '(m, h) := store_all String.eqb [s1; s2; s3] None [] in
  map snd h = [false; true; false] /\ Forall (same_keys s1) [s2; s3] /\
  map Some (values m "a") <> map (fun s => option_map snd (get s "a"%string)) (accepted h) /\ length (values m "a") <> length (values m "time").
Proof.
  exists (snap 1 10 100), [("time", ("", 2)); ("b", ("Pa", 200)); ("a", ("m", 20))]%string, (snap 3 30 300).
  vm_compute. repeat split; try discriminate; auto.
Qed.
Print Assumptions C38_failed_store_refuted.
