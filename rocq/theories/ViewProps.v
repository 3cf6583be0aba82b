(** Property theorems C25: indexing a quantity's views.  Model and specification ([selected], [inside], [corner_ref]):
    ViewModel.v. *)
From Verif Require Import Base PartModel DecompModel HaloModel ViewModel ViewProofs.

(** C25.  Along each axis q.view[idx] addresses exactly the stored points origin + i for the view coordinates i the entry
    selects (missing entries select the compute domain), for integers and forward slices that do not reach before the
    start of the storage.  Missing: None entries, slices with negative step and default bounds, entries reaching before
    the storage — see the refutations. *)
Theorem C25_view_partial : forall axs idx, Forall ax_ok axs -> (length idx <= length axs)%nat ->
  Forall2 (fun a e => inside (a_origin a) (a_extent a) (a_shape a) 0 0 e) (firstn (length idx) axs) idx ->
  view (map a_shape axs) (map a_origin axs) (map a_extent axs) idx =
  Some (map (fun '(a, e) => map (fun i => a_origin a + i) (selected (a_origin a) (a_extent a) (a_shape a) 0 0 e))
            (combine axs (pad axs idx))).
Proof. exact view_ok. Qed.
Print Assumptions C25_view_partial.

(** The same for the corner views and [interior], counted from the corner's reference point. *)
Theorem C25_corner_view_partial : forall c axs idx, Forall ax_ok axs -> (length idx <= length axs)%nat ->
  Forall2 (fun a e => inside (a_origin a) (a_extent a) (a_shape a) (corner_ref c (a_dim a) (a_extent a)) (corner_stop c (a_dim a) (a_extent a)) e)
    (firstn (length idx) axs) idx ->
  corner_view c (map a_dim axs) (map a_shape axs) (map a_origin axs) (map a_extent axs) idx =
  Some (map (fun '(a, e) => map (fun i => a_origin a + i)
      (selected (a_origin a) (a_extent a) (a_shape a) (corner_ref c (a_dim a) (a_extent a)) (corner_stop c (a_dim a) (a_extent a)) e))
            (combine axs (pad axs idx))).
Proof. exact corner_ok. Qed.
Print Assumptions C25_corner_view_partial.

(** A contiguous slice selects the same part of the compute domain. *)
Theorem C25_contiguous_slices : forall o ext s a b, 0 <= o -> 0 <= a <= b -> b <= ext -> o + ext <= s ->
  selected o ext s 0 0 (Slice (Some a) (Some b) None) = zrange a b.
Proof. exact contiguous. Qed.
Print Assumptions C25_contiguous_slices.

(** An index tuple with more entries than there are dimensions is refused by every view. *)
Theorem C25_too_many_indices : forall c axs idx, (length axs < length idx)%nat ->
  view (map a_shape axs) (map a_origin axs) (map a_extent axs) idx = None /\
  corner_view c (map a_dim axs) (map a_shape axs) (map a_origin axs) (map a_extent axs) idx = None.
Proof.
  intros c axs idx L. unfold view, compute_index, corner_view. rewrite !map_length. apply Nat.ltb_lt in L. rewrite L. auto.
Qed.
Print Assumptions C25_too_many_indices.

Definition case_axs := [mkAx (Dim AI false) 3 6 13; mkAx (Dim AJ false) 3 4 11; mkAx (Dim AV false) 0 5 6].
Example C25_case :
  Forall ax_ok case_axs /\
  view [13; 11; 6] [3; 3; 0] [6; 4; 5] [Int (-1); Slice (Some (-2)) None (Some 3)] = Some [[2]; [1; 4]; [0; 1; 2; 3; 4]] /\
  corner_view NE [Dim AI false; Dim AJ false; Dim AV false] [13; 11; 6] [3; 3; 0] [6; 4; 5] [Int 0; Slice (Some (-1)) (Some 2) None; Int 4]
    = Some [[9]; [6; 7; 8]; [4]] /\
  corner_view INTERIOR [Dim AI false; Dim AJ false; Dim AV false] [13; 11; 6] [3; 3; 0] [6; 4; 5] [Slice (Some (-1)) (Some 1) None; Int 0]
    = Some [[2; 3; 4; 5; 6; 7; 8; 9]; [3]; [0; 1; 2; 3; 4]].
Proof. split; [repeat constructor; cbn; lia|]. vm_compute. auto. Qed.

(** C25 fails with None entries: they consume the offset of an axis.  In view[None, 0] of an array with origin (3, 5) the
    first axis is addressed at 5 instead of 3. *)
Theorem C25_newaxis_refuted : exists idx, idx = [NewAxis; Int 0] /\ view [20; 20] [3; 5] [10; 10] idx = Some [[5]; zrange 0 20].
Proof. eexists. split; [reflexivity|]. vm_compute. reflexivity. Qed.
Print Assumptions C25_newaxis_refuted.

(** C25 fails for entries reaching before the storage: with origin 0, extent 4, shape 6, view[-1] is the last stored point
    (5), view[-1:] starts at the last point of the compute domain (3). *)
Theorem C25_before_storage_refuted : exists e1 e2, e1 = Int (-1) /\ e2 = Slice (Some (-1)) None None /\
  view [6] [0] [4] [e1] = Some [[5]] /\ view [6] [0] [4] [e2] = Some [[3]].
Proof. do 2 eexists. repeat split; vm_compute; reflexivity. Qed.
Print Assumptions C25_before_storage_refuted.

(** C25 fails for view[::-1]: nothing is selected. *)
Theorem C25_reversed_refuted : exists e, e = Slice None None (Some (-1)) /\ view [6] [1] [4] [e] = Some [[]].
Proof. eexists. split; [reflexivity|]. vm_compute. reflexivity. Qed.
Print Assumptions C25_reversed_refuted.
