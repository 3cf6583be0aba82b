(** Property theorems C27 (sizes of allocated arrays), C28 (grid indexing) and C61 (tile edges seen by a stencil).
    Model and specification ([place]): GridModel.v. *)
From Coq Require Import QArith.
From Verif Require Import Base Dict PartModel DecompModel HaloModel GridModel GridProofs.
Open Scope Z_scope.

(** C27.  A sizer made from tile parameters for any rank gives, for every list of dimensions it accepts: an origin, extent
    and shape whose compute domain (plus n_halo points on both sides in the horizontal) lies inside the array; every
    region, sent or received, of a halo update of at most n_halo points on any of the eight boundaries is found without
    exception and lies inside the array; and the horizontal extents are those the partitioner assigns to that rank. *)
Theorem C27_room_for_halo : forall rnd ratio nx_tile ny_tile nz n l rank data fort s,
  0 <= nz -> 0 <= n -> (forall m x, get data m = Some x -> 0 <= x) ->
  from_tile_params rnd ratio nx_tile ny_tile nz n l rank data fort = Some s ->
  (forall d e x, extent1 s d = Some e -> shape1 s d = Some x ->
     0 <= origin1 s d /\ 0 <= e /\ origin1 s d + e <= x /\
     (match d with H AI _ | H AJ _ => n <= origin1 s d /\ origin1 s d + e + n <= x | _ => True end)) /\
  (forall ds ext sh b k interior, get_extent s ds = Some ext -> get_shape s ds = Some sh -> 0 <= k <= n ->
     exists sl, boundary_slice (map to_dim ds) (get_origin s ds) ext sh b k interior = Some sl /\
       length sl = length ds /\ Forall2 (fun p x => 0 <= fst p /\ snd p <= x) sl sh) /\
  (forall a i, is_horizontal a = true ->
     subtile_extent rnd l ratio [Dim a i] [(match a with AI => nx_tile | _ => ny_tile end) + one i] rank = Some [cells s a + one i]).
Proof. exact room_for_halo. Qed.
Print Assumptions C27_room_for_halo.

(** The regions sent lie inside the compute domain: a rank never sends its own halo along the exchanged dimension. *)
Theorem C27_sent_from_domain : forall rnd ratio nx_tile ny_tile nz n l rank data fort s,
  0 <= nz -> 0 <= n -> from_tile_params rnd ratio nx_tile ny_tile nz n l rank data fort = Some s ->
  forall a i b k sh p, 0 <= k <= n ->
  boundary_slice1 (Dim a i) (origin1 s (H a i)) (cells s a + one i) sh b k true = Some p ->
  origin1 s (H a i) <= fst p /\ snd p <= origin1 s (H a i) + cells s a + one i.
Proof. exact sent_from_domain. Qed.
Print Assumptions C27_sent_from_domain.

Example C27_case :
  exists s, from_tile_params (fun q => q) 1 14 10 5 3 (2, 2) 3 [("ens"%string, 4)] false = Some s /\
    get_shape s [H AI true; H AJ false; H AV false; Data "ens"] = Some [14; 12; 6; 4] /\
    get_extent s [H AI true; H AJ false; H AV false; Data "ens"] = Some [8; 5; 5; 4].
Proof. eexists. split; [vm_compute; reflexivity|]. vm_compute. auto. Qed.

(** C28.  For spatial dimensions and halos that exist (at most n_halo horizontally, none vertically): origin and domain are
    those of the grid widened by the halo, interface dimensions have one more point, both are non-negative, and
    origin + domain is exactly the shape get_shape gives plus, vertically, the k_start of the grid.  So it fits whenever
    k_start is 0.  Missing: the storage after restrict_vertical and dimension lists with data dimensions — refuted below. *)
Theorem C28_origin_domain_partial : forall g ds halos, grid_ok g -> Forall spatial ds -> (length halos <= length ds)%nat ->
  Forall2 (halo_fits g) (firstn (length halos) ds) halos ->
  exists o dom sh, get_origin_domain g ds halos = Some (o, dom) /\ grid_shape g ds halos = Some sh /\
    length o = length ds /\ length dom = length ds /\ length sh = length ds /\
    (forall m a i x y z h, nth_error ds m = Some (H a i) -> nth_error o m = Some x -> nth_error dom m = Some y -> nth_error sh m = Some z ->
       h = nth m halos 0 ->
       0 <= x /\ 0 <= y /\ x = g_origin g a - h /\ y = g_domain g a + one i + 2 * h /\
       x + y = z + (match a with AV => g_kstart g | _ => 0 end)).
Proof. exact origin_domain_ok. Qed.
Print Assumptions C28_origin_domain_partial.

(** Restricting the vertical range is accepted exactly when the range lies within the grid's; it selects the levels
    k_start+k .. k_start+k+nk-1 and leaves the rest alone; two restrictions are one by the sum of the offsets. *)
Theorem C28_restrict_vertical : forall g k nk, 0 <= g_k g ->
  match restrict_vertical g k nk with
  | Some g' => 0 <= k /\ k <= g_k g /\ g_kstart g' = g_kstart g + k /\
               g_k g' = match nk with Some n => n | None => g_k g - k end /\ 0 <= g_k g' /\ k + g_k g' <= g_k g /\
               g_i g' = g_i g /\ g_j g' = g_j g /\ g_halo g' = g_halo g
  | None => ~ (0 <= k <= g_k g /\ match nk with Some n => 0 <= n <= g_k g - k | None => True end)
  end.
Proof. exact restrict_spec. Qed.
Print Assumptions C28_restrict_vertical.

Theorem C28_restrictions_compose : forall g k1 n1 k2 n2 g1 g2,
  restrict_vertical g k1 n1 = Some g1 -> restrict_vertical g1 k2 n2 = Some g2 -> 0 <= g_k g ->
  restrict_vertical g (k1 + k2) (Some (g_k g2)) = Some g2.
Proof. exact restrict_compose. Qed.
Print Assumptions C28_restrictions_compose.

Definition case_grid := mkGrid 12 12 79 3 0 true true true true.
Example C28_case :
  get_origin_domain case_grid [H AI true; H AJ false; H AV false] [3; 2] = Some ([0; 1; 0], [19; 16; 79]) /\
  grid_shape case_grid [H AI true; H AJ false; H AV false] [3; 2] = Some [19; 17; 79] /\
  restrict_vertical case_grid 10 (Some 20) = Some (mkGrid 12 12 20 3 10 true true true true).
Proof. vm_compute. auto. Qed.

(** C28 fails after restricting: 10 levels starting at level 5 need 15, and get_shape gives 10. *)
Theorem C28_restricted_shape_refuted : exists g g' ds, restrict_vertical g 5 (Some 10) = Some g' /\ ds = [H AI false; H AJ false; H AV false] /\
  get_origin_domain g' ds [] = Some ([3; 3; 5], [12; 12; 10]) /\ grid_shape g' ds [] = Some [15; 15; 10].
Proof. exists case_grid. do 2 eexists. split; [vm_compute; reflexivity|]. split; [reflexivity|]. vm_compute. auto. Qed.
Print Assumptions C28_restricted_shape_refuted.

(** C28 fails with a data dimension before the spatial ones: the halo is added to the wrong dimensions — here x is not
    padded while z is —, or get_shape raises IndexError. *)
Theorem C28_data_dimension_refuted : exists ds, ds = [Data "tracer"; H AI false; H AJ false; H AV false] /\
  get_origin_domain case_grid ds [] = Some ([3; 3; 0], [12; 12; 79]) /\ grid_shape case_grid ds [] = Some [12; 15; 82] /\
  grid_shape case_grid [Data "tracer"; H AI false; H AJ false] [] = None.
Proof. eexists. split; [reflexivity|]. vm_compute. auto. Qed.
Print Assumptions C28_data_dimension_refuted.

(** C61.  In a stencil run on any origin and domain: local_is/local_ie are the first and last point of this rank's compute
    domain; i_start/i_end are the same points if the rank lies on that tile edge, and otherwise lie outside every array
    of less than 32767 points: left of 0, or right of the last. *)
Theorem C61_axis_offsets : forall g a s e origin domain p1 p2 p3 p4, axis_offsets g a s e origin domain = (p1, p2, p3, p4) ->
  place origin domain p2 = g_origin g a /\ place origin domain p4 = g_origin g a + g_domain g a - 1 /\
  (s = true -> place origin domain p1 = g_origin g a) /\ (e = true -> place origin domain p3 = g_origin g a + g_domain g a - 1) /\
  (forall shape, 0 <= origin -> 1 <= domain -> origin + domain <= shape -> shape <= 32767 ->
     (s = false -> place origin domain p1 < 0) /\ (e = false -> shape <= place origin domain p3)).
Proof. exact axis_offsets_ok. Qed.
Print Assumptions C61_axis_offsets.

Example C61_case : axis_offsets case_grid AI true false 1 16 = (First 2, First 2, Last 32767, Last (-2)) /\
  place 1 16 (First 2) = 3 /\ place 1 16 (Last (-2)) = 14.
Proof. vm_compute. auto. Qed.
