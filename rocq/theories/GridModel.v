(** Model of ndsl/initialization/subtile_grid_sizer.py and of GridIndexing in ndsl/dsl/stencil.py (634-967). *)
From Coq Require Import QArith.
From Verif Require Import Base Dict PartModel DecompModel HaloModel.
Open Scope Z_scope.

(** dimension names: the six spatial dimensions (constants.py:41-53) and data dimensions *)
Inductive sdim := H (a : axis) (iface : bool) | Data (name : string).
(** the spatial dimensions are I, J and K = AV *)
Definition to_dim (d : sdim) : dim := match d with H a i => Dim a i | Data _ => Dim AV false end.
Definition one (b : bool) : Z := if b then 1 else 0.

(** ** SubtileGridSizer *)
Record sizer := mkSizer { nx : Z; ny : Z; nz : Z; n_halo : Z; data_dims : dict Z; fortran : bool (* backend.is_fortran_aligned() *) }.

Definition cells (s : sizer) (a : axis) : Z := match a with AI => nx s | AJ => ny s | AV => nz s end.

(** subtile_grid_sizer.py:129-152 get_extent, one dimension; None = KeyError *)
Definition extent1 (s : sizer) (d : sdim) : option Z :=
  match d with H a i => Some (cells s a + one i) | Data n => get (data_dims s) n end.
(** 144-148 get_origin *)
Definition origin1 (s : sizer) (d : sdim) : Z :=
  match d with H AI _ | H AJ _ => n_halo s | _ => 0 end.
(** 154-168 get_shape *)
Definition shape1 (s : sizer) (d : sdim) : option Z :=
  let pad := if fortran s then 0 else 1 in
  match d with
  | H AV false => Some (nz s + pad)
  | H AV true => Some (nz s + 1)
  | H a false => Some (cells s a + pad + 2 * n_halo s)
  | H a true => Some (cells s a + 1 + 2 * n_halo s)
  | Data n => get (data_dims s) n
  end.
Fixpoint all_some {T} (l : list (option T)) : option (list T) :=
  match l with [] => Some [] | x :: l' => do a <- x; do r <- all_some l'; Some (a :: r) end.
Definition get_extent (s : sizer) (ds : list sdim) : option (list Z) := all_some (map (extent1 s) ds).
Definition get_origin (s : sizer) (ds : list sdim) : list Z := map (origin1 s) ds.
Definition get_shape (s : sizer) (ds : list sdim) : option (list Z) := all_some (map (shape1 s) ds).

(** 26-79 from_tile_params; None = an exception *)
Definition from_tile_params (rnd : Q -> Q) (ratio : Q) (nx_tile ny_tile nz n_halo : Z) (l : layout) (rank : Z) (data : dict Z) (fort : bool) : option sizer :=
  do sl <- subtile_slice rnd l ratio rank [Dim AJ false; Dim AI false] [ny_tile; nx_tile] true;
  match sl with
  | [(y0, y1); (x0, x1)] =>
      if x1 - x0 <=? n_halo then None
      else if y1 - y0 <=? n_halo then None
      else Some (mkSizer (x1 - x0) (y1 - y0) nz n_halo data fort)
  | _ => None
  end.

(** ** GridIndexing *)
Record grid := mkGrid {
  g_i : Z; g_j : Z; g_k : Z;                       (* domain *)
  g_halo : Z; g_kstart : Z;                        (* origin = (n_halo, n_halo, k_start), stencil.py:664 *)
  south : bool; north : bool; west : bool; east : bool }.

Definition g_domain (g : grid) (a : axis) : Z := match a with AI => g_i g | AJ => g_j g | AV => g_k g end.
Definition g_origin (g : grid) (a : axis) : Z := match a with AV => g_kstart g | _ => g_halo g end.

(** 878-887 _origin_from_dims, 889-904 _domain_from_dims: data dimensions are skipped *)
Fixpoint origin_from_dims (g : grid) (ds : list sdim) : list Z :=
  match ds with [] => [] | H a _ :: ds' => g_origin g a :: origin_from_dims g ds' | Data _ :: ds' => origin_from_dims g ds' end.
Fixpoint domain_from_dims (g : grid) (ds : list sdim) : list Z :=
  match ds with [] => [] | H a i :: ds' => (g_domain g a + one i) :: domain_from_dims g ds' | Data _ :: ds' => domain_from_dims g ds' end.

(** l[i] += f(n) for i, n in enumerate(halos); None = IndexError *)
Fixpoint add_halos (l : list Z) (halos : list Z) (f : Z -> Z) : option (list Z) :=
  match halos, l with
  | [], _ => Some l
  | n :: halos', x :: l' => do r <- add_halos l' halos' f; Some (x + f n :: r)
  | _ :: _, [] => None
  end.

(** 837-857 get_origin_domain *)
Definition get_origin_domain (g : grid) (ds : list sdim) (halos : list Z) : option (list Z * list Z) :=
  do o <- add_halos (origin_from_dims g ds) halos (fun n => - n);
  do d <- add_halos (domain_from_dims g ds) halos (fun n => 2 * n);
  Some (o, d).

(** 921-923 shape[i] += n_halo for the horizontal dims[i]; [l] starts as the domain; None = IndexError *)
Fixpoint add_horizontal (g : grid) (ds : list sdim) (l : list Z) : option (list Z) :=
  match ds, l with
  | [], _ => Some l
  | H AV _ :: ds', x :: l' | Data _ :: ds', x :: l' => do r <- add_horizontal g ds' l'; Some (x :: r)
  | H _ _ :: ds', x :: l' => do r <- add_horizontal g ds' l'; Some (x + g_halo g :: r)
  | H AV _ :: ds', [] | Data _ :: ds', [] => add_horizontal g ds' []
  | H _ _ :: _, [] => None
  end.
(** 906-928 get_shape *)
Definition grid_shape (g : grid) (ds : list sdim) (halos : list Z) : option (list Z) :=
  do s <- add_horizontal g ds (domain_from_dims g ds);
  add_halos s halos (fun n => n).

(** 930-967 restrict_vertical; None = ValueError *)
Definition restrict_vertical (g : grid) (k : Z) (nk : option Z) : option grid :=
  if k <? 0 then None
  else if g_k g <? k then None
  else
    do n <- match nk with
            | None => Some (g_k g - k)
            | Some n => if n <? 0 then None else if g_k g - k <? n then None else Some n
            end;
    Some (mkGrid (g_i g) (g_j g) n (g_halo g) (g_kstart g + k) (south g) (north g) (west g) (east g)).

(** gtscript's axis points: I[0] + n and I[-1] + n *)
Inductive point := First (n : Z) | Last (n : Z).
Definition big : Z := 32767.    (* np.iinfo(np.int16).max *)

(** 792-835 axis_offsets: (i_start, local_is, i_end, local_ie) for one horizontal axis *)
Definition axis_offsets (g : grid) (a : axis) (at_start at_end : bool) (origin domain : Z) : point * point * point * point :=
  (if at_start then First (g_origin g a - origin) else First (- big),
   First (g_origin g a - origin),
   if at_end then Last (g_origin g a + g_domain g a - (origin + domain)) else Last big,
   Last (g_origin g a + g_domain g a - 1 - origin - domain + 1)).

(** ** specification *)

(** the storage index a point of a stencil run on origin .. origin+domain-1 denotes *)
Definition place (origin domain : Z) (p : point) : Z :=
  match p with First n => origin + n | Last n => origin + domain - 1 + n end.
