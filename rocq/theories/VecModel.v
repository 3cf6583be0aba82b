(** Model of whole vector halo updates: the parts HaloModel.v does not already contain, and the specification vocabulary. *)
From Verif Require Import Base PartModel PartSpec DecompModel DecompSpec HaloModel HaloSpec HaloNetSpec.
Open Scope Z_scope.

Section Values.
  Context {A : Type}.
  Variable neg : A -> A.
  (** data_transformer.py:403-416, 495-509 async_pack and async_unpack of a vector transformer (HaloModel pack_vector, unpack_vector);
      a transformer is the pair of its x and y exchange specs, a rank's quantities are the x quantities and the y quantities *)
  Definition vpack (e : list exspec * list exspec) (q : list (index -> A) * list (index -> A)) : option (list A) :=
    pack_vector neg (fst e) (snd e) (fst q) (snd q).
  Definition vunpack (e : list exspec * list exspec) (q : list (index -> A) * list (index -> A)) (m : list A)
    : option (list (index -> A) * list (index -> A)) :=
    unpack_vector (fst e) (snd e) (fst q) (snd q) m.
End Values.

(** ** specification *)
(** The components of a vector, and the direction of a component on face t of the cube. *)
Inductive comp := CX | CY.
Definition tangent (c : comp) (t : Z) : vec := match c with CX => ax t | CY => ay t end.
(** The direction of a component of face t, carried around the edge of the face (half-width N) beyond which (x, y) lies. *)
Definition carried (c : comp) (N t x y : Z) : vec := match c with CX => carried_ax N t x y | CY => carried_ay N t x y end.

(** Dimensions that differ in staggering only. *)
Definition centred (d : dim) : dim := match d with Dim a _ => Dim a false | TILE => TILE end.
Definition same_axes (D D' : list dim) : Prop := map centred D = map centred D'.
(** Staggering of a vector's components that the cube's rotations respect: the x component is staggered in x exactly when the
    y component is in y, and in y exactly when the y component is in x (A, B, C and D grids). *)
Definition mirrored (D : comp -> list dim) : Prop :=
  same_axes (D CX) (D CY) /\ iface_x (D CX) = iface_y (D CY) /\ iface_y (D CX) = iface_x (D CY).

(** A schedule in which every rank starts, then all messages arrive, then every rank finishes. *)
Definition vector_schedule (R : Z) (T : Z -> list (Z * (list exspec * list exspec))) : list event :=
  map EStart (zrange 0 R) ++ flat_map (fun r => map (fun t => ERecv r (fst t)) (T r)) (zrange 0 R) ++ map EFinish (zrange 0 R).
