(** Specification vocabulary for whole halo updates: how the ranks' arrays cover the torus or the cube. *)
From Verif Require Import Base PartModel PartSpec DecompModel DecompSpec HaloModel HaloSpec.
Open Scope Z_scope.

(** N cells cut into k consecutive pieces: piece i is [cut i, cut (i+1)), of at least h cells. *)
Definition cuts (k N h : Z) (cut : Z -> Z) : Prop :=
  cut 0 = 0 /\ cut k = N /\ forall i, 0 <= i < k -> h <= cut (i + 1) - cut i.
(** The pieces' sizes read the same from both ends. *)
Definition palindromic (k : Z) (cut : Z -> Z) : Prop := forall i, 0 <= i <= k -> cut (k - i) = cut k - cut i.

(** The array of one rank for a field with dimensions [dims]: cells [xlo, xhi) x [ylo, yhi), plus a last line along
    staggered dimensions, starting at index [origin], with at least n halo points on each side. *)
Definition holds_cells (s : spec) (dims : list dim) (origin extent : list Z) (n xlo xhi ylo yhi : Z) : Prop :=
  wf_spec s /\ sp_dims s = dims /\ sp_origin s = origin /\ sp_n s = n /\
  sp_extent s = put_xy dims extent (xhi - xlo + b2z (iface_x dims)) (yhi - ylo + b2z (iface_y dims)) /\
  n <= cx dims origin /\ n <= cy dims origin /\
  cx dims origin + cx dims (sp_extent s) + n <= cx dims (sp_shape s) /\
  cy dims origin + cy dims (sp_extent s) + n <= cy dims (sp_shape s).

(** Points within n points of the compute domain horizontally, and inside it along the other dimensions. *)
Definition near (s : spec) (p : index) : Prop :=
  let D := sp_dims s in
  inside (put_xy D (compute_domain s)
            (cx D (sp_origin s) - sp_n s, cx D (sp_origin s) + cx D (sp_extent s) + sp_n s)
            (cy D (sp_origin s) - sp_n s, cy D (sp_origin s) + cy D (sp_extent s) + sp_n s)) p.

(** Global cell position of the array point p of a rank whose cells start at lo. *)
Definition gx (s : spec) (lo : Z) (p : index) : Z := lo + (cx (sp_dims s) p - cx (sp_dims s) (sp_origin s)).
Definition gy (s : spec) (lo : Z) (p : index) : Z := lo + (cy (sp_dims s) p - cy (sp_dims s) (sp_origin s)).

(** What a periodic tile of Ny x Nx cells holds at p: the value of the global field at the position modulo the tile. *)
Definition on_torus {A} (G : index -> A) (Nx Ny : Z) (s : spec) (xlo ylo : Z) (p : index) : A :=
  G (put_xy (sp_dims s) p (gx s xlo p mod Nx) (gy s ylo p mod Ny)).

(** In-plane coordinate on a face of half-width N of cell or line number g: cell centres lie halfway between lines. *)
Definition plane_coord (N : Z) (staggered : bool) (g : Z) : Z := 2 * g + (if staggered then 0 else 1) - N.

(** Rank numbering on the cube: tile by tile, then row by row. *)
Definition tile_of (n rank : Z) : Z := rank / (n * n).
Definition row_of (n rank : Z) : Z := rank mod (n * n) / n.
Definition col_of (n rank : Z) : Z := rank mod (n * n) mod n.

(** In-plane coordinates of array point p of a rank whose cells start at (xlo, ylo), on a face of half-width N. *)
Definition face_x (N : Z) (s : spec) (xlo : Z) (p : index) : Z := plane_coord N (iface_x (sp_dims s)) (gx s xlo p).
Definition face_y (N : Z) (s : spec) (ylo : Z) (p : index) : Z := plane_coord N (iface_y (sp_dims s)) (gy s ylo p).

(** Sequences of events of ranks 0..R-1. *)
Definition valid_events (R : Z) (evs : list event) : Prop :=
  Forall (fun ev => 0 <= match ev with EStart r | EFinish r => r | ERecv r _ => r end < R) evs.

(** Whatever rank r expects from a neighbour s: s is a rank that packs a message for r, of exactly the expected size. *)
Definition sizes_match {A} (R : Z) (T : Z -> list (Z * list exspec)) (q : Z -> list (index -> A)) : Prop :=
  forall r s expected, 0 <= r < R -> In (s, expected) (T r) ->
    0 <= s < R /\ exists sent m, In (r, sent) (T s) /\ pack_scalar sent (q s) = Some m /\ Z.of_nat (length m) = scalar_bufsize expected.

(** A schedule in which every rank starts, then all messages arrive, then every rank finishes. *)
Definition full_schedule (R : Z) (T : Z -> list (Z * list exspec)) : list event :=
  map EStart (zrange 0 R) ++ flat_map (fun r => map (fun t => ERecv r (fst t)) (T r)) (zrange 0 R) ++ map EFinish (zrange 0 R).
