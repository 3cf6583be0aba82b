(** Model of the states of the parallel tests of the grid: ndsl/stencils/testing/parallel_translate.py 102-122 (outputs_from_state of
    ParallelTranslate), 163-183 (_serialize_slice) and 195-223 (state_from_inputs of ParallelTranslateGrid), with
    ndsl/initialization/subtile_grid_sizer.py 129-168 and allocator.py 176-213 (zeros).

    A quantity is that of QuantModel.v, numpy's arrays and slices are those of StorModel.v.  Left out: units, element types, devices and backends;
    the numbers kaxis that are negative; the check of the new Quantity.  None = an exception. *)
From Verif Require Import Base Dict QuantModel StorModel.

(** constants.py 41-54, 71 *)
Definition i_dims : list string := ["i"; "i_interface"]%string.
Definition j_dims : list string := ["j"; "j_interface"]%string.
Definition horizontal_dims : list string := i_dims ++ j_dims.
Definition n_halo_default : Z := 3.
Definition mem (d : string) (l : list string) : bool := if in_dec string_dec d l then true else false.

(** subtile_grid_sizer.py: nx, ny, nz, n_halo, 1 if dimensions without interfaces are padded, data_dimensions *)
Record sizer := Sizer { s_nx : Z; s_ny : Z; s_nz : Z; s_halo : Z; s_pad : Z; s_data : dict Z }.
(** 129-142 *)
Definition dim_extents (s : sizer) : dict Z :=
  update (s_data s) [("i", s_nx s); ("i_interface", s_nx s + 1); ("j", s_ny s); ("j_interface", s_ny s + 1); ("k", s_nz s); ("k_interface", s_nz s + 1)]%string.
(** 154-168 *)
Definition shape_dict (s : sizer) : dict Z :=
  update (s_data s) [("i", s_nx s + s_pad s + 2 * s_halo s); ("i_interface", s_nx s + 1 + 2 * s_halo s);
                     ("j", s_ny s + s_pad s + 2 * s_halo s); ("j_interface", s_ny s + 1 + 2 * s_halo s);
                     ("k", s_nz s + s_pad s); ("k_interface", s_nz s + 1)]%string.
Fixpoint gets (t : dict Z) (ds : list string) : option (list Z) :=
  match ds with [] => Some [] | d :: ds' => do x <- get t d; do r <- gets t ds'; Some (x :: r) end.
(** 144-148 *)
Definition get_origin (s : sizer) (ds : list string) : list Z := map (fun d => if mem d horizontal_dims then s_halo s else 0) ds.

Section State.
Context {V : Type} (zero : V).
(** allocator.py 176-213 *)
Definition zeros_of (s : sizer) (ds : list string) : option (quantity V) :=
  do e <- gets (dim_extents s) ds;
  do sh <- gets (shape_dict s) ds;
  Some (mkQ ds (get_origin s ds) e (s_halo s) sh (fun _ => zero)).

(** the property n_halo: a number or a pair *)
Inductive halos := Both (n : Z) | Each (i j : Z).
(** the declaration of a variable: dims, name, n_halo *)
Record decl := Decl { d_dims : list string; d_name : option string; d_halo : option halos }.
Definition halos_of (p : decl) : halos := match d_halo p with Some h => h | None => Both n_halo_default end.

(** 163-183, real_dims = quantity.dims *)
Definition halo_of (h : halos) (d : string) : Z :=
  if mem d horizontal_dims then match h with Both n => n | Each i j => if mem d i_dims then i else j end else 0.
Fixpoint bounds (h : halos) (ds : list string) (os es : list Z) : list (Z * Z) :=
  match ds, os, es with
  | d :: ds', o :: os', e :: es' => (o - halo_of h d, o + e + halo_of h d) :: bounds h ds' os' es'
  | _, _, _ => []
  end.
Definition serialize_slice (q : quantity V) (h : halos) : list (Z * Z) := bounds h (dims q) (origin q) (extent q).

(** numpy: a[bounds] = x, see [StorModel.assign] *)
Definition set_slice (q : quantity V) (b : list (Z * Z)) (a : nd V) : option (quantity V) :=
  do target <- take (shape q) b;
  do padded <- pad (length target) (shp a);
  if fits padded target then
    Some (mkQ (dims q) (origin q) (extent q) (n_halo q) (shape q) (fun idx =>
      if inside target idx then val a (repeat 0 (length (shp a) - length target) ++ skipn (length target - length (shp a)) (source padded target idx)) else data q idx))
  else None.
Definition get_slice (q : quantity V) (b : list (Z * Z)) : option (nd V) := subarray V (mkNd (shape q) (data q)) b.

(** Python's list.pop(k), list.pop(-1), list.insert(k, x) *)
Fixpoint pop {T} (k : nat) (l : list T) : option (T * list T) :=
  match l, k with [], _ => None | x :: l', O => Some (x, l') | x :: l', S k' => do r <- pop k' l'; Some (fst r, x :: snd r) end.
Definition pop_last {T} (l : list T) : option (T * list T) := match rev l with [] => None | x :: r => Some (x, rev r) end.
Definition insert {T} (k : nat) (x : T) (l : list T) : list T := firstn k l ++ x :: skipn k l.

Inductive value := Qty (q : quantity V) | Raw (a : nd V).
(** the entry kaxis of in_vars["data_vars"] for a name *)
Context (kaxis : string -> option nat).

(** 197-222 for one variable *)
Definition load (s : sizer) (inputs : dict (nd V)) (name : string) (p : decl) : option value :=
  match d_dims p with
  | [] => do a <- get inputs name; Some (Raw a)
  | ds => do a <- get inputs name;
          do q <- zeros_of s ds;
          do q1 <- set_slice q (serialize_slice q (halos_of p)) a;
          match kaxis name with
          | None => Some (Qty q1)
          | Some k => do x <- pop k (dims q1);
                      do q2 <- transpose q1 (map Name (snd x ++ [fst x]));
                      Some (Qty q2)
          end
  end.
(** 195-223 *)
Fixpoint state_from_inputs (s : sizer) (decls : dict decl) (inputs : dict (nd V)) (state : dict value) : option (dict value) :=
  match decls with
  | [] => Some state
  | (name, p) :: decls' =>
      do v <- load s inputs name p;
      state_from_inputs s decls' inputs (put state (match d_name p with Some n => n | None => name end) v)
  end.

(** 106-112: the quantity of the state is replaced by the transposed one *)
Definition turn_back (name std : string) (state : dict value) : option (dict value) :=
  match kaxis name with
  | None => Some state
  | Some k => do v <- get state std;
              match v with
              | Raw _ => None
              | Qty q => do x <- pop_last (dims q);
                         do q' <- transpose q (map Name (insert k (fst x) (snd x)));
                         Some (put state std (Qty q'))
              end
  end.
(** 113-120 *)
Definition output (p : decl) (v : value) : option value :=
  match d_dims p, v with
  | [], _ => Some v
  | _, Raw _ => None
  | _, Qty q => do a <- get_slice q (serialize_slice q (halos_of p)); Some (Raw a)
  end.
(** 102-122: the outputs and the state that is left *)
Fixpoint outputs_from_state (decls : dict decl) (state : dict value) (out : dict value) : option (dict value * dict value) :=
  match decls with
  | [] => Some (out, state)
  | (name, p) :: decls' =>
      do std <- d_name p;
      do state1 <- turn_back name std state;
      do v <- get state1 std;
      do r <- output p v;
      outputs_from_state decls' state1 (put out name r)
  end.
End State.
Arguments value : clear implicits.
