(** Model of the corner fills: ndsl/stencils/corners.py:27-1019.

    A field is a function of the two horizontal storage indices; its value is whatever is stored at one column.  Both kinds of
    implementation are turned into the list of single-column assignments they perform, in order:
    - the array functions assign column by column in Python loops;
    - a stencil runs its statements in order, each on the points of its regions inside the window it is run on.
    Simplified: arrays are large enough for the indices used (no IndexError, no negative index); the levels of a column are
    treated alike (kslice_from_inputs, 16-24, is left out); multiplication by a coefficient is an arbitrary function. *)
From Verif Require Import Base DecompModel GridModel.

(** the coefficients a value is multiplied by: none, mysign, or the multiplier given for a corner *)
Inductive coef := C1 | Cms | Csw | Cse | Cnw | Cne.

(** fields are numbered: an assignment of mul(s_c, field s_f at (s_i, s_j)) to field t_f at (t_i, t_j) *)
Record asg := mkAsg { t_f : nat; t_i : Z; t_j : Z; s_c : coef; s_f : nat; s_i : Z; s_j : Z }.

Section Exec.
  Context {V : Type}.
  Variable mul : coef -> V -> V.
  Definition fields := nat -> Z -> Z -> V.
  Definition exec1 (a : asg) (st : fields) : fields := fun f i j =>
    if (f =? t_f a)%nat && (i =? t_i a) && (j =? t_j a) then mul (s_c a) (st (s_f a) (s_i a) (s_j a)) else st f i j.
  Definition exec (l : list asg) (st : fields) : fields := fold_left (fun s a => exec1 a s) l st.
End Exec.

(** ** stencils *)

(** i_start + d, i_end + d (likewise j) *)
Inductive bnd := St (d : Z) | En (d : Z).
(** with horizontal(regions): to = coefficient * from[oi, oj, 0] *)
Record stmt := mkStmt { regs : list (bnd * bnd); to : nat; cf : coef; from : nat; oi : Z; oj : Z }.

(** where a stencil runs and what i_start, i_end, j_start, j_end are (in storage indices) *)
Record window := mkWindow { w_i : Z; w_ni : Z; w_j : Z; w_nj : Z; i_start : Z; i_end : Z; j_start : Z; j_end : Z }.
Definition at_bnd (start stop : Z) (b : bnd) : Z := match b with St d => start + d | En d => stop + d end.
Definition in_window (w : window) (i j : Z) : bool :=
  (w_i w <=? i) && (i <? w_i w + w_ni w) && (w_j w <=? j) && (j <? w_j w + w_nj w).
Definition stmt_asgs (w : window) (s : stmt) : list asg :=
  flat_map (fun r => let i := at_bnd (i_start w) (i_end w) (fst r) in
                     let j := at_bnd (j_start w) (j_end w) (snd r) in
                     if in_window w i j then [mkAsg (to s) i j (cf s) (from s) (i + oi s) (j + oj s)] else [])
           (regs s).
Definition stencil_asgs (w : window) (l : list stmt) : list asg := flat_map (stmt_asgs w) l.

(** stencil_factory.from_origin_domain(origin, domain, externals=axis_offsets(origin, domain)); 364-369 *)
Definition start_of (p : point * point * point * point) : point := fst (fst (fst p)).
Definition end_of (p : point * point * point * point) : point := snd (fst p).
Definition window_at (g : grid) (oi ni oj nj : Z) : window :=
  let xi := axis_offsets g AI (west g) (east g) oi ni in
  let xj := axis_offsets g AJ (south g) (north g) oj nj in
  mkWindow oi ni oj nj (place oi ni (start_of xi)) (place oi ni (end_of xi)) (place oj nj (start_of xj)) (place oj nj (end_of xj)).
(** the full domain of a field with or without interface points (342-349 for FillCornersBGrid, with both) *)
Definition full_window (g : grid) (ii ij : bool) : option window :=
  do od <- get_origin_domain g [H AI ii; H AJ ij] [g_halo g; g_halo g];
  match od with ([a; b], [c; d]) => Some (window_at g a c b d) | _ => None end.

(** 27-66 fill_corners_2cells_mult_x *)
Definition fill_2cells_mult_x (q q_corner : nat) : list stmt := [
  mkStmt [(St (-1), St (-1))] q Csw q_corner 0 1;
  mkStmt [(St (-2), St (-1))] q Csw q_corner 1 2;
  mkStmt [(En 1, St (-1))] q Cse q_corner 0 1;
  mkStmt [(En 2, St (-1))] q Cse q_corner (-1) 2;
  mkStmt [(St (-1), En 1)] q Cnw q_corner 0 (-1);
  mkStmt [(St (-2), En 1)] q Cnw q_corner 1 (-2);
  mkStmt [(En 1, En 1)] q Cne q_corner 0 (-1);
  mkStmt [(En 2, En 1)] q Cne q_corner (-1) (-2)
].

(** 105-121, the part of fill_corners_3cells_mult_x after the call of fill_corners_2cells_mult_x *)
Definition fill_3rd_cell_x (q q_corner : nat) : list stmt := [
  mkStmt [(St (-3), St (-1))] q Csw q_corner 2 3;
  mkStmt [(En 3, St (-1))] q Cse q_corner (-2) 3;
  mkStmt [(St (-3), En 1)] q Cnw q_corner 2 (-3);
  mkStmt [(En 3, En 1)] q Cne q_corner (-2) (-3)
].
(** 88-121 fill_corners_3cells_mult_x *)
Definition fill_3cells_mult_x (q q_corner : nat) : list stmt := fill_2cells_mult_x q q_corner ++ fill_3rd_cell_x q q_corner.

(** 124-163 fill_corners_2cells_mult_y *)
Definition fill_2cells_mult_y (q q_corner : nat) : list stmt := [
  mkStmt [(St (-1), St (-1))] q Csw q_corner 1 0;
  mkStmt [(St (-1), St (-2))] q Csw q_corner 2 1;
  mkStmt [(En 1, St (-1))] q Cse q_corner (-1) 0;
  mkStmt [(En 1, St (-2))] q Cse q_corner (-2) 1;
  mkStmt [(St (-1), En 1)] q Cnw q_corner 1 0;
  mkStmt [(St (-1), En 2)] q Cnw q_corner 2 (-1);
  mkStmt [(En 1, En 1)] q Cne q_corner (-1) 0;
  mkStmt [(En 1, En 2)] q Cne q_corner (-2) (-1)
].

(** 192-208, the part of fill_corners_3cells_mult_y after the call of fill_corners_2cells_mult_y *)
Definition fill_3rd_cell_y (q q_corner : nat) : list stmt := [
  mkStmt [(St (-1), St (-3))] q Csw q_corner 3 2;
  mkStmt [(En 1, St (-3))] q Cse q_corner (-3) 2;
  mkStmt [(St (-1), En 3)] q Cnw q_corner 3 (-2);
  mkStmt [(En 1, En 3)] q Cne q_corner (-3) (-2)
].
(** 175-208 fill_corners_3cells_mult_y *)
Definition fill_3cells_mult_y (q q_corner : nat) : list stmt := fill_2cells_mult_y q q_corner ++ fill_3rd_cell_y q q_corner.

(** 219-326 the regions of copy_corners_xy_stencil_defn *)
Definition copy_corners_regions (q_in q_out_x q_out_y : nat) : list stmt := [
  mkStmt [(St (-3), St (-3)); (En 3, St (-3))] q_out_x C1 q_in 0 5;
  mkStmt [(St (-2), St (-3)); (En 3, St (-2))] q_out_x C1 q_in (-1) 4;
  mkStmt [(St (-1), St (-3)); (En 3, St (-1))] q_out_x C1 q_in (-2) 3;
  mkStmt [(St (-3), St (-2)); (En 2, St (-3))] q_out_x C1 q_in 1 4;
  mkStmt [(St (-2), St (-2)); (En 2, St (-2))] q_out_x C1 q_in 0 3;
  mkStmt [(St (-1), St (-2)); (En 2, St (-1))] q_out_x C1 q_in (-1) 2;
  mkStmt [(St (-3), St (-1)); (En 1, St (-3))] q_out_x C1 q_in 2 3;
  mkStmt [(St (-2), St (-1)); (En 1, St (-2))] q_out_x C1 q_in 1 2;
  mkStmt [(St (-1), St (-1)); (En 1, St (-1))] q_out_x C1 q_in 0 1;
  mkStmt [(St (-3), En 1); (En 1, En 3)] q_out_x C1 q_in 2 (-3);
  mkStmt [(St (-2), En 1); (En 1, En 2)] q_out_x C1 q_in 1 (-2);
  mkStmt [(St (-1), En 1); (En 1, En 1)] q_out_x C1 q_in 0 (-1);
  mkStmt [(St (-3), En 2); (En 2, En 3)] q_out_x C1 q_in 1 (-4);
  mkStmt [(St (-2), En 2); (En 2, En 2)] q_out_x C1 q_in 0 (-3);
  mkStmt [(St (-1), En 2); (En 2, En 1)] q_out_x C1 q_in (-1) (-2);
  mkStmt [(St (-3), En 3); (En 3, En 3)] q_out_x C1 q_in 0 (-5);
  mkStmt [(St (-2), En 3); (En 3, En 2)] q_out_x C1 q_in (-1) (-4);
  mkStmt [(St (-1), En 3); (En 3, En 1)] q_out_x C1 q_in (-2) (-3);
  mkStmt [(St (-3), St (-3)); (St (-3), En 3)] q_out_y C1 q_in 5 0;
  mkStmt [(St (-2), St (-3)); (St (-3), En 2)] q_out_y C1 q_in 4 1;
  mkStmt [(St (-1), St (-3)); (St (-3), En 1)] q_out_y C1 q_in 3 2;
  mkStmt [(St (-3), St (-2)); (St (-2), En 3)] q_out_y C1 q_in 4 (-1);
  mkStmt [(St (-2), St (-2)); (St (-2), En 2)] q_out_y C1 q_in 3 0;
  mkStmt [(St (-1), St (-2)); (St (-2), En 1)] q_out_y C1 q_in 2 1;
  mkStmt [(St (-3), St (-1)); (St (-1), En 3)] q_out_y C1 q_in 3 (-2);
  mkStmt [(St (-2), St (-1)); (St (-1), En 2)] q_out_y C1 q_in 2 (-1);
  mkStmt [(St (-1), St (-1)); (St (-1), En 1)] q_out_y C1 q_in 1 0;
  mkStmt [(En 1, St (-3)); (En 3, En 1)] q_out_y C1 q_in (-3) 2;
  mkStmt [(En 2, St (-3)); (En 3, En 2)] q_out_y C1 q_in (-4) 1;
  mkStmt [(En 3, St (-3)); (En 3, En 3)] q_out_y C1 q_in (-5) 0;
  mkStmt [(En 1, St (-2)); (En 2, En 1)] q_out_y C1 q_in (-2) 1;
  mkStmt [(En 2, St (-2)); (En 2, En 2)] q_out_y C1 q_in (-3) 0;
  mkStmt [(En 3, St (-2)); (En 2, En 3)] q_out_y C1 q_in (-4) (-1);
  mkStmt [(En 1, St (-1)); (En 1, En 1)] q_out_y C1 q_in (-1) 0;
  mkStmt [(En 2, St (-1)); (En 1, En 2)] q_out_y C1 q_in (-2) (-1);
  mkStmt [(En 3, St (-1)); (En 1, En 3)] q_out_y C1 q_in (-3) (-2)
].

(** 375-434 fill_corners_bgrid_x_defn *)
Definition bgrid_x_defn (q_in q_out : nat) : list stmt := [
  mkStmt [(St (-1), St (-1)); (En 2, St (-1))] q_out C1 q_in 0 2;
  mkStmt [(St (-1), St (-2)); (En 3, St (-1))] q_out C1 q_in (-1) 3;
  mkStmt [(St (-1), St (-3)); (En 4, St (-1))] q_out C1 q_in (-2) 4;
  mkStmt [(St (-2), St (-1)); (En 2, St (-2))] q_out C1 q_in 1 3;
  mkStmt [(St (-2), St (-2)); (En 3, St (-2))] q_out C1 q_in 0 4;
  mkStmt [(St (-2), St (-3)); (En 4, St (-2))] q_out C1 q_in (-1) 5;
  mkStmt [(St (-3), St (-1)); (En 2, St (-3))] q_out C1 q_in 2 4;
  mkStmt [(St (-3), St (-2)); (En 3, St (-3))] q_out C1 q_in 1 5;
  mkStmt [(St (-3), St (-3)); (En 4, St (-3))] q_out C1 q_in 0 6;
  mkStmt [(St (-1), En 2); (En 2, En 2)] q_out C1 q_in 0 (-2);
  mkStmt [(St (-1), En 3); (En 3, En 2)] q_out C1 q_in (-1) (-3);
  mkStmt [(St (-1), En 4); (En 4, En 2)] q_out C1 q_in (-2) (-4);
  mkStmt [(St (-2), En 2); (En 2, En 3)] q_out C1 q_in 1 (-3);
  mkStmt [(St (-2), En 3); (En 3, En 3)] q_out C1 q_in 0 (-4);
  mkStmt [(St (-2), En 4); (En 4, En 3)] q_out C1 q_in (-1) (-5);
  mkStmt [(St (-3), En 2); (En 2, En 4)] q_out C1 q_in 2 (-4);
  mkStmt [(St (-3), En 3); (En 3, En 4)] q_out C1 q_in 1 (-5);
  mkStmt [(St (-3), En 4); (En 4, En 4)] q_out C1 q_in 0 (-6)
].

(** 437-496 fill_corners_bgrid_y_defn *)
Definition bgrid_y_defn (q_in q_out : nat) : list stmt := [
  mkStmt [(St (-1), St (-1)); (St (-1), En 2)] q_out C1 q_in 2 0;
  mkStmt [(St (-1), St (-2)); (St (-2), En 2)] q_out C1 q_in 3 1;
  mkStmt [(St (-1), St (-3)); (St (-3), En 2)] q_out C1 q_in 4 2;
  mkStmt [(St (-2), St (-1)); (St (-1), En 3)] q_out C1 q_in 3 (-1);
  mkStmt [(St (-2), St (-2)); (St (-2), En 3)] q_out C1 q_in 4 0;
  mkStmt [(St (-2), St (-3)); (St (-3), En 3)] q_out C1 q_in 5 1;
  mkStmt [(St (-3), St (-1)); (St (-1), En 4)] q_out C1 q_in 4 (-2);
  mkStmt [(St (-3), St (-2)); (St (-2), En 4)] q_out C1 q_in 5 (-1);
  mkStmt [(St (-3), St (-3)); (St (-3), En 4)] q_out C1 q_in 6 0;
  mkStmt [(En 2, St (-1)); (En 2, En 2)] q_out C1 q_in (-2) 0;
  mkStmt [(En 2, St (-2)); (En 3, En 2)] q_out C1 q_in (-3) 1;
  mkStmt [(En 2, St (-3)); (En 4, En 2)] q_out C1 q_in (-4) 2;
  mkStmt [(En 3, St (-1)); (En 2, En 3)] q_out C1 q_in (-3) (-1);
  mkStmt [(En 3, St (-2)); (En 3, En 3)] q_out C1 q_in (-4) 0;
  mkStmt [(En 3, St (-3)); (En 4, En 3)] q_out C1 q_in (-5) 1;
  mkStmt [(En 4, St (-1)); (En 2, En 4)] q_out C1 q_in (-4) (-2);
  mkStmt [(En 4, St (-2)); (En 3, En 4)] q_out C1 q_in (-5) (-1);
  mkStmt [(En 4, St (-3)); (En 4, En 4)] q_out C1 q_in (-6) 0
].

(** 877-1019 fill_corners_dgrid_defn *)
Definition dgrid_defn (x_in x_out y_in y_out : nat) : list stmt := [
  mkStmt [(St (-1), St (-1))] x_out Cms y_in 0 1;
  mkStmt [(St (-1), St (-1))] y_out Cms x_in 1 0;
  mkStmt [(St (-1), St (-2))] x_out Cms y_in (-1) 2;
  mkStmt [(St (-1), St (-2))] y_out Cms x_in 2 1;
  mkStmt [(St (-1), St (-3))] x_out Cms y_in (-2) 3;
  mkStmt [(St (-1), St (-3))] y_out Cms x_in 3 2;
  mkStmt [(St (-2), St (-1))] x_out Cms y_in 1 2;
  mkStmt [(St (-2), St (-1))] y_out Cms x_in 2 (-1);
  mkStmt [(St (-2), St (-2))] x_out Cms y_in 0 3;
  mkStmt [(St (-2), St (-2))] y_out Cms x_in 3 0;
  mkStmt [(St (-2), St (-3))] x_out Cms y_in (-1) 4;
  mkStmt [(St (-2), St (-3))] y_out Cms x_in 4 1;
  mkStmt [(St (-3), St (-1))] x_out Cms y_in 2 3;
  mkStmt [(St (-3), St (-1))] y_out Cms x_in 3 (-2);
  mkStmt [(St (-3), St (-2))] x_out Cms y_in 1 4;
  mkStmt [(St (-3), St (-2))] y_out Cms x_in 4 (-1);
  mkStmt [(St (-3), St (-3))] x_out Cms y_in 0 5;
  mkStmt [(St (-3), St (-3))] y_out Cms x_in 5 0;
  mkStmt [(En 1, En 2)] x_out Cms y_in 1 (-2);
  mkStmt [(En 2, En 1)] y_out Cms x_in (-2) 1;
  mkStmt [(En 1, En 3)] x_out Cms y_in 2 (-3);
  mkStmt [(En 2, En 2)] y_out Cms x_in (-3) 0;
  mkStmt [(En 2, En 2)] x_out Cms y_in 0 (-3);
  mkStmt [(En 1, En 4)] x_out Cms y_in 3 (-4);
  mkStmt [(En 2, En 3)] y_out Cms x_in (-4) (-1);
  mkStmt [(En 2, En 3)] x_out Cms y_in 1 (-4);
  mkStmt [(En 3, En 1)] y_out Cms x_in (-3) 2;
  mkStmt [(En 3, En 2)] y_out Cms x_in (-4) 1;
  mkStmt [(En 3, En 2)] x_out Cms y_in (-1) (-4);
  mkStmt [(En 2, En 4)] x_out Cms y_in 2 (-5);
  mkStmt [(En 3, En 3)] y_out Cms x_in (-5) 0;
  mkStmt [(En 3, En 3)] x_out Cms y_in 0 (-5);
  mkStmt [(En 4, En 1)] y_out Cms x_in (-4) 3;
  mkStmt [(En 4, En 2)] y_out Cms x_in (-5) 2;
  mkStmt [(En 3, En 4)] x_out Cms y_in 1 (-6);
  mkStmt [(En 4, En 3)] y_out Cms x_in (-6) 1;
  mkStmt [(St (-1), En 2)] x_out C1 y_in 0 (-2);
  mkStmt [(St (-1), En 2)] y_out C1 x_in 2 0;
  mkStmt [(St (-1), En 1)] y_out C1 x_in 1 1;
  mkStmt [(St (-1), En 3)] x_out C1 y_in (-1) (-3);
  mkStmt [(St (-1), En 3)] y_out C1 x_in 3 (-1);
  mkStmt [(St (-1), En 4)] x_out C1 y_in (-2) (-4);
  mkStmt [(St (-2), En 2)] x_out C1 y_in 1 (-3);
  mkStmt [(St (-2), En 2)] y_out C1 x_in 3 1;
  mkStmt [(St (-2), En 1)] y_out C1 x_in 2 2;
  mkStmt [(St (-2), En 3)] x_out C1 y_in 0 (-4);
  mkStmt [(St (-2), En 3)] y_out C1 x_in 4 0;
  mkStmt [(St (-2), En 4)] x_out C1 y_in (-1) (-5);
  mkStmt [(St (-3), En 2)] x_out C1 y_in 2 (-4);
  mkStmt [(St (-3), En 2)] y_out C1 x_in 4 2;
  mkStmt [(St (-3), En 1)] y_out C1 x_in 3 3;
  mkStmt [(St (-3), En 3)] x_out C1 y_in 1 (-5);
  mkStmt [(St (-3), En 3)] y_out C1 x_in 5 1;
  mkStmt [(St (-3), En 4)] x_out C1 y_in 0 (-6);
  mkStmt [(En 1, St (-1))] x_out C1 y_in 1 1;
  mkStmt [(En 2, St (-1))] y_out C1 x_in (-2) 0;
  mkStmt [(En 2, St (-1))] x_out C1 y_in 0 2;
  mkStmt [(En 1, St (-2))] x_out C1 y_in 2 2;
  mkStmt [(En 2, St (-2))] y_out C1 x_in (-3) 1;
  mkStmt [(En 2, St (-2))] x_out C1 y_in 1 3;
  mkStmt [(En 1, St (-3))] x_out C1 y_in 3 3;
  mkStmt [(En 2, St (-3))] y_out C1 x_in (-4) 2;
  mkStmt [(En 2, St (-3))] x_out C1 y_in 2 4;
  mkStmt [(En 3, St (-1))] y_out C1 x_in (-3) (-1);
  mkStmt [(En 3, St (-1))] x_out C1 y_in (-1) 3;
  mkStmt [(En 3, St (-2))] y_out C1 x_in (-4) 0;
  mkStmt [(En 3, St (-2))] x_out C1 y_in 0 4;
  mkStmt [(En 3, St (-3))] y_out C1 x_in (-5) 1;
  mkStmt [(En 3, St (-3))] x_out C1 y_in 1 5;
  mkStmt [(En 4, St (-1))] y_out C1 x_in (-4) (-2);
  mkStmt [(En 4, St (-2))] y_out C1 x_in (-5) (-1);
  mkStmt [(En 4, St (-3))] y_out C1 x_in (-6) 0
].

(** 211-218 copy_corners_xy_stencil_defn: both outputs are first a copy of the input *)
Definition copy_corners_xy {V} (mul : coef -> V -> V) (w : window) (q_in q_out_x q_out_y : nat) (st : @fields V) : fields :=
  exec mul (stencil_asgs w (copy_corners_regions q_in q_out_x q_out_y))
       (fun f i j => if ((f =? q_out_x)%nat || (f =? q_out_y)%nat) && in_window w i j then st q_in i j else st f i j).

(** 371-372 FillCornersBGrid.__call__: the stencil in place *)
Definition fill_bgrid {V} (mul : coef -> V -> V) (w : window) (x_direction : bool) (q : nat) (st : @fields V) : fields :=
  exec mul (stencil_asgs w (if x_direction then bgrid_x_defn q q else bgrid_y_defn q q)) st.

(** ** array functions *)
Definition isc (g : grid) : Z := g_halo g.                  (* dsl/stencil.py:704-722 *)
Definition iec (g : grid) : Z := g_halo g + g_i g - 1.
Definition jsc (g : grid) : Z := g_halo g.
Definition jec (g : grid) : Z := g_halo g + g_j g - 1.
(** dsl/stencil.py:744-758 *)
Definition sw_corner (g : grid) := south g && west g.
Definition nw_corner (g : grid) := north g && west g.
Definition se_corner (g : grid) := south g && east g.
Definition ne_corner (g : grid) := north g && east g.

(** for i in range(1, 1 + n_halo): for j in range(1, 1 + n_halo) *)
Definition pairs (n : Z) : list (Z * Z) := flat_map (fun i => map (fun j => (i, j)) (zrange 1 (1 + n))) (zrange 1 (1 + n)).
Definition loop (g : grid) (sw nw se ne : Z -> Z -> list asg) : list asg :=
  flat_map (fun ij => let '(i, j) := ij in
              (if sw_corner g then sw i j else []) ++ (if nw_corner g then nw i j else []) ++
              (if se_corner g then se i j else []) ++ (if ne_corner g then ne i j else [])) (pairs (g_halo g)).

(** 504-518, 521-535, 538-552: one assignment for either direction *)
Definition sw_bgrid (g : grid) (x : bool) (q : nat) (i j : Z) : list asg :=
  if x then [mkAsg q (isc g - i) (jsc g - j) C1 q (isc g - j) (jsc g + i)]
  else [mkAsg q (isc g - j) (jsc g - i) C1 q (isc g + i) (jsc g - j)].
Definition nw_bgrid (g : grid) (x : bool) (q : nat) (i j : Z) : list asg :=
  if x then [mkAsg q (isc g - i) (jec g + 1 + j) C1 q (isc g - j) (jec g + 1 - i)]
  else [mkAsg q (isc g - j) (jec g + 1 + i) C1 q (isc g + i) (jec g + 1 + j)].
Definition se_bgrid (g : grid) (x : bool) (q : nat) (i j : Z) : list asg :=
  if x then [mkAsg q (iec g + 1 + i) (jsc g - j) C1 q (iec g + 1 + j) (jsc g + i)]
  else [mkAsg q (iec g + 1 + j) (jsc g - i) C1 q (iec g + 1 - i) (jsc g - j)].
(** 555-569: the second index is the slice [jec + 1 + j :], so every row from there to the last one, [nj] - 1, is assigned *)
Definition ne_bgrid (g : grid) (nj : Z) (x : bool) (q : nat) (i j : Z) : list asg :=
  map (fun r => if x then mkAsg q (iec g + 1 + i) r C1 q (iec g + 1 + j) (jec g + 1 - i)
                else mkAsg q (iec g + 1 + i) r C1 q (iec g + 1 - i) (jec g + 1 + j)) (zrange (jec g + 1 + j) nj).
(** 667-679 fill_corners_2d_bgrid *)
Definition fill_2d_bgrid (g : grid) (nj : Z) (x : bool) (q : nat) : list asg :=
  loop g (sw_bgrid g x q) (nw_bgrid g x q) (se_bgrid g x q) (ne_bgrid g nj x q).

(** 572-589, 592-609, 612-629 (which has isc for jsc), 632-649 *)
Definition sw_agrid (g : grid) (x : bool) (q : nat) (i j : Z) : list asg :=
  if x then [mkAsg q (isc g - i) (jsc g - j) C1 q (isc g - j) (jsc g + i - 1)]
  else [mkAsg q (isc g - j) (jsc g - i) C1 q (isc g + i - 1) (jsc g - j)].
Definition nw_agrid (g : grid) (x : bool) (q : nat) (i j : Z) : list asg :=
  if x then [mkAsg q (isc g - i) (jec g + j) C1 q (isc g - j) (jec g - i + 1)]
  else [mkAsg q (isc g - j) (jec g + i) C1 q (isc g + i - 1) (jec g + j)].
Definition se_agrid (g : grid) (x : bool) (q : nat) (i j : Z) : list asg :=
  if x then [mkAsg q (iec g + i) (jsc g - j) C1 q (iec g + j) (isc g + i - 1)]
  else [mkAsg q (iec g + j) (jsc g - i) C1 q (iec g - i + 1) (jsc g - j)].
Definition ne_agrid (g : grid) (x : bool) (q : nat) (i j : Z) : list asg :=
  if x then [mkAsg q (iec g + i) (jec g + j) C1 q (iec g + j) (jec g - i + 1)]
  else [mkAsg q (iec g + j) (jec g + i) C1 q (iec g - i + 1) (jec g + j)].
(** 682-694 fill_corners_2d_agrid *)
Definition fill_2d_agrid (g : grid) (x : bool) (q : nat) : list asg :=
  loop g (sw_agrid g x q) (nw_agrid g x q) (se_agrid g x q) (ne_agrid g x q).

(** 697-734 fill_corners_agrid *)
Definition fill_agrid (g : grid) (x y : nat) : list asg :=
  let n := g_halo g in
  loop g
    (fun i j => [mkAsg x (n - i) (n - j) Cms y (n - j) (n - 1 + i); mkAsg y (n - j) (n - i) Cms x (n - 1 + i) (n - j)])
    (fun i j => [mkAsg x (n - i) (jec g + j) C1 y (n - j) (jec g - i + 1); mkAsg y (n - j) (jec g + i) C1 x (n - 1 + i) (jec g + j)])
    (fun i j => [mkAsg x (iec g + i) (n - j) C1 y (iec g + j) (n - 1 + i); mkAsg y (iec g + j) (n - i) C1 x (iec g - i + 1) (n - j)])
    (fun i j => [mkAsg x (iec g + i) (jec g + j) Cms y (iec g + j) (jec g - i + 1);
                 mkAsg y (iec g + j) (jec g + i) Cms x (iec g - i + 1) (jec g + j)]).

(** 737-806 fill_corners_dgrid, with the literal index offsets i + 2, j + 2 of 746-771 *)
Definition fill_dgrid (g : grid) (x y : nat) : list asg :=
  loop g
    (fun i j => [mkAsg x (isc g - i) (jsc g - j) Cms y (isc g - j) (i + 2); mkAsg y (isc g - i) (jsc g - j) Cms x (j + 2) (jsc g - i)])
    (fun i j => [mkAsg x (isc g - i) (jec g + 1 + j) C1 y (isc g - j) (jec g + 1 - i);
                 mkAsg y (isc g - i) (jec g + j) C1 x (j + 2) (jec g + 1 + i)])
    (fun i j => [mkAsg x (iec g + i) (jsc g - j) C1 y (iec g + 1 + j) (i + 2);
                 mkAsg y (iec g + 1 + i) (jsc g - j) C1 x (iec g - j + 1) (jsc g - i)])
    (fun i j => [mkAsg x (iec g + i) (jec g + 1 + j) Cms y (iec g + 1 + j) (jec g - i + 1);
                 mkAsg y (iec g + 1 + i) (jec g + j) Cms x (iec g - j + 1) (jec g + 1 + i)]).

(** 809-874 fill_corners_cgrid, with the literal index offsets of 812-844 *)
Definition fill_cgrid (g : grid) (x y : nat) : list asg :=
  loop g
    (fun i j => [mkAsg x (isc g - i) (jsc g - j) C1 y (j + 2) (jsc g - i); mkAsg y (isc g - i) (jsc g - j) C1 x (isc g - j) (i + 2)])
    (fun i j => [mkAsg x (isc g - i) (jec g + j) Cms y (j + 2) (jec g + 1 + i);
                 mkAsg y (isc g - i) (jec g + 1 + j) Cms x (isc g - j) (jec g + 1 - i)])
    (fun i j => [mkAsg x (iec g + 1 + i) (jsc g - j) Cms y (iec g + 1 - j) (jsc g - i);
                 mkAsg y (iec g + i) (jsc g - j) Cms x (iec g + 1 + j) (i + 2)])
    (fun i j => [mkAsg x (iec g + 1 + i) (jec g + j) C1 y (iec g + 1 - j) (jec g + 1 + i);
                 mkAsg y (iec g + i) (jec g + 1 + j) C1 x (iec g + 1 + j) (jec g + 1 - i)]).

(** ** specification

    The eight corners of the cube are shared by three tiles, not four: the halo block diagonally beyond such a corner has no tile
    of its own.  A fill takes it from one of the two halo blocks beside it, by a quarter turn about the corner.  Positions are in half
    cells: cell i has its centre at 2i + 1, the interfaces are at the even positions. *)
Record stagger := mkStagger { ci : bool; cj : bool }.       (* at the centre of cells along i / j ? *)
Definition half (c : bool) : Z := if c then 1 else 0.
Inductive turn := CW | CCW.
Definition turned (r : turn) (p : Z * Z) : Z * Z := match r with CW => (snd p, - fst p) | CCW => (- snd p, fst p) end.

(** the corner at the east/west and north/south end of the tile *)
Definition corner_pos (g : grid) (e n : bool) : Z * Z :=
  (2 * (if e then g_halo g + g_i g else g_halo g), 2 * (if n then g_halo g + g_j g else g_halo g)).
Definition has_corner (g : grid) (e n : bool) : bool := (if e then east g else west g) && (if n then north g else south g).
(** position relative to a corner *)
Definition rel (g : grid) (s : stagger) (e n : bool) (i j : Z) : Z * Z :=
  (2 * i + half (ci s) - fst (corner_pos g e n), 2 * j + half (cj s) - snd (corner_pos g e n)).
(** outside the tile beyond this end, at most [cells] cells away *)
Definition beyond (e : bool) (cells : Z) (u : Z) : Prop := if e then 0 < u <= 2 * cells else - (2 * cells) <= u < 0.
Definition in_corner (g : grid) (ni nj : Z) (s : stagger) (e n : bool) (i j : Z) : Prop :=
  beyond e ni (fst (rel g s e n i j)) /\ beyond n nj (snd (rel g s e n i j)).
(** the halo block beside the corner: beyond the same end of the tile along i only (direction i), or along j only *)
Definition beside (x_direction e n : bool) (p : Z * Z) : Prop :=
  if x_direction then (if e then 0 < fst p else fst p < 0) /\ (if n then snd p < 0 else 0 < snd p)
  else (if e then fst p < 0 else 0 < fst p) /\ (if n then 0 < snd p else snd p < 0).
Definition filled_from (g : grid) (x_direction : bool) (s s' : stagger) (e n : bool) (i j : Z) (r : turn) (i' j' : Z) : Prop :=
  rel g s' e n i' j' = turned r (rel g s e n i j) /\ beside x_direction e n (rel g s' e n i' j').

Section Spec.
  Context {V : Type}.
  (** [new] is [old] with the corner blocks ([ni] by [nj] cells) of the corners this rank has filled from [src] in the given
      direction, with factor [op]; [old] and [new] have stagger [s], [src] has [s'] *)
  Definition fills (g : grid) (ni nj : Z) (x_direction : bool) (s s' : stagger) (op : bool -> bool -> turn -> V -> V)
      (inside : Z -> Z -> Prop) (src old new : Z -> Z -> V) : Prop :=
    (forall e n i j, has_corner g e n = true -> in_corner g ni nj s e n i j -> inside i j ->
       exists r i' j', filled_from g x_direction s s' e n i j r i' j' /\ new i j = op e n r (src i' j')) /\
    (forall i j, inside i j -> (forall e n, has_corner g e n = true -> ~ in_corner g ni nj s e n i j) -> new i j = old i j).
  (** a scalar is taken as it is *)
  Definition as_is : bool -> bool -> turn -> V -> V := fun _ _ _ v => v.
  (** a component of a vector field: if the position was turned by [r] to find the value, the vector (x, y) found is turned back,
      to (-y, x) for a clockwise [r] and to (y, -x) otherwise; [neg] is the multiplication by -1 for vectors (by 1 otherwise) *)
  Definition x_of_turned (neg : V -> V) : bool -> bool -> turn -> V -> V := fun _ _ r v => match r with CW => neg v | CCW => v end.
  Definition y_of_turned (neg : V -> V) : bool -> bool -> turn -> V -> V := fun _ _ r v => match r with CW => v | CCW => neg v end.
End Spec.
Definition centre := mkStagger true true.
Definition vertex := mkStagger false false.
Definition x_face := mkStagger false true.      (* on the interfaces along i *)
Definition y_face := mkStagger true false.
