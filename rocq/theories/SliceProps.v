(** C35, C50, C57: slicing.  Model and specification in SliceModel.v. *)
From Verif Require Import Base PartModel DecompModel HaloModel ViewModel SliceModel SliceProofs.
Open Scope Z_scope.

(** C35. For every array and reference shape (same number of axes, no axis shorter than the reference): where the array has
    h halo points on either side of the reference's points and b in {0, 1} trailing buffer points, exactly the points h .. h + target - 1 remain, in order, along
    every axis.  (Every length at least the target's is of that form.) *)
Theorem C35_clip :
  forall axes : list (Z * Z * Z),    (* (target, h, b) for each axis *)
  Forall (fun '(target, h, b) => 0 <= target /\ 0 <= h /\ (b = 0 \/ b = 1)) axes ->
  clip (map (fun '(target, h, b) => target + 2 * h + b) axes) (map (fun '(target, _, _) => target) axes) =
    Some (map (fun '(target, h, _) => zrange h (h + target)) axes).
Proof.
  intros axes H. rewrite clip_ok.
  - f_equal. induction H as [|[[t h] b] axes (H1 & H2 & H3) F IH]; [reflexivity|]. cbn [map combine]. f_equal; [|exact IH].
    replace ((t + 2 * h + b - t) / 2) with h; [reflexivity|]. replace (t + 2 * h + b - t) with (b + h * 2) by lia. rewrite Z.div_add by lia.
    destruct H3 as [->| ->]; reflexivity.
  - induction H as [|[[t h] b] axes (H1 & H2 & H3) F IH]; constructor; auto. lia.
Qed.
Print Assumptions C35_clip.
Example C35_case : Forall (fun '(target, h, b) => 0 <= target /\ 0 <= h /\ (b = 0 \/ b = 1)) [(4, 3, 1); (5, 3, 0); (2, 0, 1)] /\
  clip [11; 11; 3] [4; 5; 2] = Some [[3; 4; 5; 6]; [3; 4; 5; 6; 7]; [0; 1]].
Proof. split; [repeat constructor; lia|vm_compute; reflexivity]. Qed.

(** C50. For a compute domain [isc, iec] x [jsc, jec] at least as large as the halo, with the same halo width h on all four
    sides, inside the array: the exchange is defined; afterwards every point (i, j) of the data domain holds the previous value at the periodic image
    of i and j in the compute domain; in particular the compute domain is unchanged. *)
Theorem C50_periodic :
  forall V ni nj isc iec isd ied jsc jec jsd jed (f : field2 V),
  let h := isc - isd in
  0 <= isd -> ied < ni -> 0 <= jsd -> jed < nj ->                               (* the array holds the data domain *)
  0 <= h -> ied - iec = h -> jsc - jsd = h -> jed - jec = h ->                  (* halo width h on every side *)
  h <= iec + 1 - isc -> h <= jec + 1 - jsc -> isc <= iec -> jsc <= jec ->       (* domain at least as large as the halo, not empty *)
  exists g, mock_exchange V ni nj isc iec isd ied jsc jec jsd jed f = Some g /\
    (forall i j, isd <= i <= ied -> jsd <= j <= jed -> g i j = f (image isc (iec + 1 - isc) i) (image jsc (jec + 1 - jsc) j)) /\
    (forall i j, isc <= i <= iec -> jsc <= j <= jec -> g i j = f i j).
Proof.
  intros V ni nj isc iec isd ied jsc jec jsd jed f h A1 A2 A3 A4 A5 A6 A7 A8 A9 A10 A11 A12.
  destruct (exchange_ok V ni nj isc iec isd ied jsc jec jsd jed f) as (g & E & G); try lia.
  exists g. split; auto. split; auto. intros i j Hi Hj. rewrite G by lia. rewrite !image_in by lia. reflexivity.
Qed.
Print Assumptions C50_periodic.
Example C50_case :
  option_map (fun g => map (fun j => map (fun i => g i j) (zrange 0 7)) (zrange 0 8)) (mock_exchange Z 7 8 2 4 0 6 2 5 0 7 (fun i j => 10 * i + j)) =
  Some [[34; 44; 24; 34; 44; 24; 34]; [35; 45; 25; 35; 45; 25; 35]; [32; 42; 22; 32; 42; 22; 32]; [33; 43; 23; 33; 43; 23; 33];
        [34; 44; 24; 34; 44; 24; 34]; [35; 45; 25; 35; 45; 25; 35]; [32; 42; 22; 32; 42; 22; 32]; [33; 43; 23; 33; 43; 23; 33]].
Proof. vm_compute. reflexivity. Qed.

(** C57 (partial). For every grid size and halo width at least one: exactly the points within the halo width of an edge
    become NaN.  Missing: width zero, see [C57_zero_refuted]. *)
Theorem C57_halo_nan_partial :
  forall V ni nj ng (nan : V) f, 0 <= ni -> 0 <= nj -> 1 <= ng ->
  exists g, set_halo_nan V ni nj ng nan f = Some g /\
    forall i j, 0 <= i < ni -> 0 <= j < nj ->
      ((near_edge ni ng i \/ near_edge nj ng j) -> g i j = nan) /\ (~ near_edge ni ng i /\ ~ near_edge nj ng j -> g i j = f i j).
Proof. exact halo_nan_ok. Qed.
Print Assumptions C57_halo_nan_partial.
Example C57_case :
  option_map (fun g => map (fun j => map (fun i => g i j) (zrange 0 5)) (zrange 0 4)) (set_halo_nan Z 5 4 1 (-1) (fun i j => 10 * i + j)) =
  Some [[-1; -1; -1; -1; -1]; [-1; 11; 21; 31; -1]; [-1; 12; 22; 32; -1]; [-1; -1; -1; -1; -1]].
Proof. vm_compute. reflexivity. Qed.

(** Full statement: the same for every width, including zero.  False: with ng = 0 the slice -0: is the whole axis, so a grid without halo becomes
    NaN everywhere. *)
Theorem C57_zero_refuted : exists ni nj i j (f : field2 Z) g, set_halo_nan Z ni nj 0 (-1) f = Some g /\
  0 <= i < ni /\ 0 <= j < nj /\ ~ near_edge ni 0 i /\ ~ near_edge nj 0 j /\ g i j <> f i j.
Proof.
  exists 3, 3, 1, 1, (fun i j => i), (match set_halo_nan Z 3 3 0 (-1) (fun i j => i) with Some g => g | None => fun i j => i end).
  split; [reflexivity|]. unfold near_edge. repeat split; try lia. vm_compute. discriminate.
Qed.
Print Assumptions C57_zero_refuted.
