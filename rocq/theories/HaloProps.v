(** Property theorems C10, C14: halo regions and rotation of halo data.  Model: HaloModel.v.  Specification: HaloSpec.v. *)
From Verif Require Import Base PartModel PartSpec DecompModel DecompSpec HaloModel HaloSpec HaloProofs.
Open Scope Z_scope.

(** C10.  Every point received lies in the array and outside the compute domain. *)
Theorem C10_received_points_are_halo_points : forall s b sl p,
  wf_spec s -> recv_slice b s = Some sl -> inside sl p ->
  in_extent (sp_shape s) p /\ ~ inside (compute_domain s) p.
Proof. exact recv_is_halo. Qed.
Print Assumptions C10_received_points_are_halo_points.

(** C10.  Regions received from different directions are disjoint. *)
Theorem C10_received_regions_disjoint : forall s b1 b2 sl1 sl2 p,
  wf_spec s -> recv_slice b1 s = Some sl1 -> recv_slice b2 s = Some sl2 -> inside sl1 p -> inside sl2 p -> b1 = b2.
Proof. exact recv_disjoint. Qed.
Print Assumptions C10_received_regions_disjoint.

(** C10.  Together they are exactly the points outside the compute domain that are within n points of it horizontally
    (and inside it along every other dimension): nothing of the halo is missed. *)
Theorem C10_received_regions_cover_halo : forall s p,
  wf_spec s -> (forall b, recv_slice b s <> None) ->
  let D := sp_dims s in
  (inside (put_xy D (compute_domain s)
            (cx D (sp_origin s) - sp_n s, cx D (sp_origin s) + cx D (sp_extent s) + sp_n s)
            (cy D (sp_origin s) - sp_n s, cy D (sp_origin s) + cy D (sp_extent s) + sp_n s)) p /\
   ~ inside (compute_domain s) p)
  <-> exists b sl, recv_slice b s = Some sl /\ inside sl p.
Proof. exact recv_tiles_halo. Qed.
Print Assumptions C10_received_regions_cover_halo.

(** C10.  Sent or received, a region is n points deep across the boundary and as long as the compute domain elsewhere. *)
Theorem C10_region_depth : forall s b (sent : bool) sl m d e r,
  wf_spec s -> (if sent then send_slice b s else recv_slice b s) = Some sl ->
  nth_error (sp_dims s) m = Some d -> nth_error (sp_extent s) m = Some e -> nth_error sl m = Some r ->
  snd r - fst r = if along b d =? 0 then e else sp_n s.
Proof. intros s b [] sl m d e r W H. apply (slice_depth s b true sl m d e r W H). apply (slice_depth s b false sl m d e r W H). Qed.
Print Assumptions C10_region_depth.

(** C10.  A rank sends only points of its compute domain, next to the boundary and never the shared interface line,
    provided the subtile has n such points. *)
Theorem C10_sent_points_are_owned : forall s b sl p,
  wf_spec s -> send_slice b s = Some sl ->
  (forall m d e, nth_error (sp_dims s) m = Some d -> nth_error (sp_extent s) m = Some e -> along b d <> 0 ->
     sp_n s + b2z (is_iface d) <= e) ->
  inside sl p ->
  inside (compute_domain s) p /\
  forall m d o e x, nth_error (sp_dims s) m = Some d -> nth_error (sp_origin s) m = Some o ->
    nth_error (sp_extent s) m = Some e -> nth_error p m = Some x ->
    (along b d = -1 -> x - o < sp_n s + b2z (is_iface d) /\ (is_iface d = true -> x <> o)) /\
    (along b d = 1 -> o + e - 1 - x < sp_n s + b2z (is_iface d) /\ (is_iface d = true -> x <> o + e - 1)).
Proof. exact send_owned. Qed.
Print Assumptions C10_sent_points_are_owned.

(** Without that proviso it fails: a halo deeper than the subtile is accepted, and halo points are sent. *)
Theorem C10_deep_halo_refuted : exists s b sl p,
  wf_spec s /\ send_slice b s = Some sl /\ recv_slice b s <> None /\ inside sl p /\ ~ inside (compute_domain s) p.
Proof. exact deep_halo_refuted. Qed.
Print Assumptions C10_deep_halo_refuted.

(** C10.  Receiving raises an error exactly when the array has fewer than n points beyond the compute domain there. *)
Theorem C10_error_iff_no_room : forall s b, wf_spec s ->
  (recv_slice b s = None <->
   exists m d o e h, nth_error (sp_dims s) m = Some d /\ nth_error (sp_origin s) m = Some o /\
     nth_error (sp_extent s) m = Some e /\ nth_error (sp_shape s) m = Some h /\
     (along b d = -1 /\ o < sp_n s \/ along b d = 1 /\ h < o + e + sp_n s)).
Proof. exact recv_error_iff. Qed.
Print Assumptions C10_error_iff_no_room.

Example C10_case : let s := mkSpec [Dim AV false; Dim AJ true; Dim AI false] [0; 3; 3] [5; 9; 8] [6; 15; 15] 3 in
  wf_spec s /\ send_slice NORTHWEST s = Some [(0, 5); (8, 11); (3, 6)] /\
  recv_slice NORTHWEST s = Some [(0, 5); (12, 15); (0, 3)].
Proof.
  split; [|split; vm_compute; reflexivity]. repeat split; try (cbn; lia). repeat constructor; cbn; lia.
Qed.

(** C14.  Rotating a two-component field by a then by b quarter turns is rotating it by a + b (any integers, counted
    modulo 4; a multiple of 4 changes nothing), so rotating back restores it. *)
Theorem C14_rotations_compose : forall (A : Type) (neg : A -> A) dims x y a b,
  plane dims -> (forall v, neg (neg v) = v) -> length (fst x) = length dims -> length (fst y) = length dims ->
  let '(x1, y1) := rotate_vector neg x y a dims in
  let '(x2, y2) := rotate_vector neg x1 y1 b dims in
  let '(x3, y3) := rotate_vector neg x y (a + b) dims in
  same_array x2 x3 /\ same_array y2 y3.
Proof. intros A neg dims x y a b P. exact (vector_compose dims P neg x y a b). Qed.
Print Assumptions C14_rotations_compose.

Theorem C14_rotation_round_trip : forall (A : Type) (neg : A -> A) dims x y a b,
  plane dims -> (forall v, neg (neg v) = v) -> length (fst x) = length dims -> length (fst y) = length dims ->
  (a + b) mod 4 = 0 ->
  let '(x1, y1) := rotate_vector neg x y a dims in
  let '(x2, y2) := rotate_vector neg x1 y1 b dims in
  same_array x2 x /\ same_array y2 y.
Proof. exact @vector_round_trip. Qed.
Print Assumptions C14_rotation_round_trip.

(** C14.  Components turn with the grid: [src p] is the point whose data ends up at p.  If the vector stored at src p
    points from src p to src p', the vector stored at p after the rotation points from p to p'. *)
Theorem C14_components_turn_with_the_grid : forall dims shape k p p' (u v : index -> Z),
  plane dims -> length shape = length dims ->
  let src := snd (rotate_scalar (shape, fun i => i) dims k) in
  let '(u', v') := rotate_vector Z.opp (shape, u) (shape, v) k dims in
  in_extent (fst u') p -> in_extent (fst u') p' ->
  u (src p) = cx dims (src p') - cx dims (src p) -> v (src p) = cy dims (src p') - cy dims (src p) ->
  snd u' p = cx dims p' - cx dims p /\ snd v' p = cy dims p' - cy dims p.
Proof. intros dims shape k p p' u v P. exact (vector_displacement dims P shape k p p' u v). Qed.
Print Assumptions C14_components_turn_with_the_grid.

Example C14_case :
  let dims := [Dim AJ false; Dim AI false] in
  let u := fun p : index => match p with [y; x] => 10 * y + x | _ => 0 end in
  let '(x1, y1) := rotate_vector Z.opp ([2; 3], u) ([2; 3], fun p => 100 + u p) (-3) dims in
  fst x1 = [3; 2] /\ flatten x1 = [102; 112; 101; 111; 100; 110] /\ flatten y1 = [-2; -12; -1; -11; 0; -10].
Proof. vm_compute. repeat split; reflexivity. Qed.
