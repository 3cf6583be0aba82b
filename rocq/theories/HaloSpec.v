(** Specification vocabulary for halo exchange, independent of the model's algorithms. *)
From Verif Require Import Base PartModel PartSpec DecompModel DecompSpec HaloModel.
Open Scope Z_scope.

(** The entry of a per-dimension list on the x (AI) or y (AJ) axis, and the list with those entries replaced. *)
Fixpoint coord {T} (a : axis) (dims : list dim) (l : list T) (d : T) : T :=
  match dims, l with
  | m :: dims', v :: l' => if on_axis a m then v else coord a dims' l' d
  | _, _ => d
  end.
Definition cx (dims : list dim) (p : list Z) : Z := coord AI dims p 0.
Definition cy (dims : list dim) (p : list Z) : Z := coord AJ dims p 0.
Fixpoint put_xy {T} (dims : list dim) (l : list T) (x y : T) : list T :=
  match dims, l with
  | m :: dims', v :: l' => (if on_axis AI m then x else if on_axis AJ m then y else v) :: put_xy dims' l' x y
  | _, _ => l
  end.

(** A field on the horizontal plane: exactly one x dimension and exactly one y dimension, others arbitrary. *)
Definition plane (dims : list dim) : Prop := count_axis AJ dims = 1%nat /\ count_axis AI dims = 1%nat.

(** Staggering of the x and of the y dimension. *)
Definition is_iface (d : dim) : bool := match d with Dim _ true => true | _ => false end.
Definition iface_x (dims : list dim) : bool := is_iface (coord AI dims dims TILE).
Definition iface_y (dims : list dim) : bool := is_iface (coord AJ dims dims TILE).
Definition b2z (b : bool) : Z := if b then 1 else 0.

(** A well-formed memory description: the compute domain lies inside the array. *)
Definition wf_spec (s : spec) : Prop :=
  plane (sp_dims s) /\ 0 <= sp_n s /\
  length (sp_origin s) = length (sp_dims s) /\ length (sp_extent s) = length (sp_dims s) /\
  Forall2 (fun oe h => 0 <= fst oe /\ 0 <= snd oe /\ fst oe + snd oe <= h) (combine (sp_origin s) (sp_extent s)) (sp_shape s).

(** Box of the given origin and extent. *)
Definition box (origin extent : list Z) : list (Z * Z) := map (fun oe => (fst oe, fst oe + snd oe)) (combine origin extent).
Definition compute_domain (s : spec) : list (Z * Z) := box (sp_origin s) (sp_extent s).

(** The direction of [b] along a dimension. *)
Definition along (b : btype) (d : dim) : Z := match d with Dim AI _ => dx b | Dim AJ _ => dy b | _ => 0 end.

(** Arrays (shape, contents) that are equal as arrays. *)
Definition same_array {A} (m m' : list Z * (index -> A)) : Prop :=
  fst m = fst m' /\ forall p, in_extent (fst m) p -> snd m p = snd m' p.
