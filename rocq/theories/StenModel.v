(** Model of the stencil factory: ndsl/dsl/stencil.py 792-835 (GridIndexing.axis_offsets, all of its entries), 1000-1026
    (from_origin_domain), 1027-1066 (from_dims_halo), 1068-1076 (restrict_vertical), 1086-1115 (get_stencils_with_varied_bounds),
    ndsl/dsl/typing.py 121-124 (cast_to_index3d).

    A stencil is what the compiler and the calls get: the function, the origin and domain it runs on and its externals.  Left out:
    configuration, timing, the communicator, an origin for each field, and the choice of CompareToNumpyStencil. *)
From Coq Require Import QArith.
From Verif Require Import Base Dict PartModel DecompModel HaloModel GridModel.
Open Scope Z_scope.

(** values of externals: a point on the I or J axis, a level, or something of the user's *)
Inductive ext := EPoint (a : axis) (p : point) | ELevel (k : Z) | EUser (v : Z).
Record stencil := Stencil { func : string; s_origin : list Z; s_domain : list Z; externals : dict ext }.

(** 792-835 for an origin and a domain of three entries; None = IndexError for fewer than two.  Simplified: entries after the third are
    not looked at, and two entries (levels 0 to 0) are refused later in any case (from_origin_domain) *)
Definition all_offsets (g : grid) (origin domain : list Z) : option (dict ext) :=
  match origin, domain with
  | [oi; oj; ok], [di; dj; dk] =>
      let '(i_start, local_is, i_end, local_ie) := axis_offsets g AI (west g) (east g) oi di in
      let '(j_start, local_js, j_end, local_je) := axis_offsets g AJ (south g) (north g) oj dj in
      Some [("i_start", EPoint AI i_start); ("local_is", EPoint AI local_is); ("i_end", EPoint AI i_end); ("local_ie", EPoint AI local_ie);
            ("j_start", EPoint AJ j_start); ("local_js", EPoint AJ local_js); ("j_end", EPoint AJ j_end); ("local_je", EPoint AJ local_je);
            ("k_start", ELevel ok); ("k_end", ELevel (ok + (dk - 1)))]%string
  | _, _ => None
  end.

(** typing.py 121-124 *)
Definition cast_to_index3d (l : list Z) : option (list Z) := if (length l =? 3)%nat then Some l else None.
(** 1000-1026, and FrozenStencil.__init__ 293-296; None = ValueError *)
Definition from_origin_domain (f : string) (origin domain : list Z) (e : dict ext) : option stencil :=
  do o <- cast_to_index3d origin; do d <- cast_to_index3d domain; Some (Stencil f o d e).
(** 1027-1066; None = an exception *)
Definition from_dims_halo (g : grid) (f : string) (ds : list sdim) (halos : list Z) (user : option (dict ext)) : option stencil :=
  let user := match user with Some u => u | None => [] end in
  if negb (length ds =? 3)%nat then None
  else
    do od <- get_origin_domain g ds halos;
    do o <- cast_to_index3d (fst od);
    do d <- cast_to_index3d (snd od);
    do a <- all_offsets g o d;
    from_origin_domain f o d (update a user).
(** 1086-1115; None = an exception *)
Fixpoint varied (g : grid) (f : string) (l : list (list Z * list Z)) (user : dict ext) : option (list stencil) :=
  match l with
  | [] => Some []
  | (o, d) :: l' =>
      do a <- all_offsets g o d;
      do s <- from_origin_domain f o d (update user a);
      do r <- varied g f l' user;
      Some (s :: r)
  end.
Definition get_stencils_with_varied_bounds (g : grid) (f : string) (origins domains : list (list Z)) (user : option (dict ext)) : option (list stencil) :=
  let user := match user with Some u => u | None => [] end in
  if negb (length origins =? length domains)%nat then None else varied g f (combine origins domains) user.

(** ** specification *)
(** the names that the factory gives a meaning to *)
Definition axis_names : list string :=
  ["i_start"; "local_is"; "i_end"; "local_ie"; "j_start"; "local_js"; "j_end"; "local_je"; "k_start"; "k_end"]%string.
(** the first and the last storage index that a stencil computes along an axis; I, J and K are the first, second and third entry *)
Definition position (a : axis) : nat := match a with AI => 0 | AJ => 1 | AV => 2 end.
Definition first_index (s : stencil) (a : axis) : Z := nth (position a) (s_origin s) 0.
Definition last_index (s : stencil) (a : axis) : Z := nth (position a) (s_origin s) 0 + nth (position a) (s_domain s) 0 - 1.
(** the storage index that an external denotes in a stencil *)
Definition denotes (s : stencil) (e : ext) : option Z :=
  match e with
  | EPoint a (First n) => Some (first_index s a + n)
  | EPoint a (Last n) => Some (last_index s a + n)
  | ELevel k => Some k
  | EUser _ => None
  end.
Definition means (s : stencil) (name : string) (i : Z) : Prop := exists e, get (externals s) name = Some e /\ denotes s e = Some i.
(** the externals of a stencil that runs on a rank with the cells of [g]: the compute domain's first and last cell; the same for
    i_start, ... on a rank at that edge of the tile; the levels that the stencil computes *)
Definition axis_externals (g : grid) (s : stencil) : Prop :=
  means s "local_is" (g_halo g) /\ means s "local_ie" (g_halo g + g_i g - 1) /\
  means s "local_js" (g_halo g) /\ means s "local_je" (g_halo g + g_j g - 1) /\
  (west g = true -> means s "i_start" (g_halo g)) /\ (east g = true -> means s "i_end" (g_halo g + g_i g - 1)) /\
  (south g = true -> means s "j_start" (g_halo g)) /\ (north g = true -> means s "j_end" (g_halo g + g_j g - 1)) /\
  (west g = false -> exists i, means s "i_start" i /\ i <= first_index s AI - 32767) /\
  (east g = false -> exists i, means s "i_end" i /\ last_index s AI + 32767 <= i) /\
  (south g = false -> exists i, means s "j_start" i /\ i <= first_index s AJ - 32767) /\
  (north g = false -> exists i, means s "j_end" i /\ last_index s AJ + 32767 <= i) /\
  means s "k_start" (first_index s AV) /\ means s "k_end" (last_index s AV).
