(** Model of the Coriolis parameters of GridData: ndsl/grid/helper.py 326-347 (constructor), 377-407 (_fC_from_data, _fC_from_lat,
    fC, fC_agrid).

    Quantities are those of AllocModel.v, with elements in the real numbers: rounding is left out, element types are kept. *)
From Coq Require Import Reals Lra.
From Verif Require Import Base Dict GridModel AllocModel.
Open Scope R_scope.

Section Coriolis.
  Variable Float : dtype.
  Variable omega : R.          (* constants.OMEGA *)

  (* the two caches hold None until they are computed *)
  Record grid := Grid { lat : quantity R; lat_agrid : quantity R; _fC : option (quantity R); _fC_agrid : option (quantity R) }.

  (* 377-387 *)
  Definition fC_from_data (d : arr R) (l : quantity R) : option (quantity R) :=
    new_quantity Float d (dims l) "1/s"%string (backend l) (Some (origin l)) (Some (extent l)) false (nhalo l).
  (* 389-393 *)
  Definition fC_from_lat (l : quantity R) : option (quantity R) :=
    fC_from_data (Arr (shape (data l)) (fun i => 2 * omega * sin (elt (data l) i)) Float) l.
  (* 326-347; None = ValueError *)
  Definition new_grid (l la : quantity R) (fc fc_agrid : option (arr R)) : option grid :=
    do a <- match fc with None => Some None | Some d => do q <- fC_from_data d l; Some (Some q) end;
    do b <- match fc_agrid with None => Some None | Some d => do q <- fC_from_data d l; Some (Some q) end;
    Some (Grid l la a b).

  (* 395-407: what a read gives, and the object afterwards *)
  Inductive place := Corners | Centres.
  Definition read (p : place) (g : grid) : option (quantity R) * grid :=
    match p with
    | Corners =>
        match _fC g with
        | Some q => (Some q, g)
        | None => match fC_from_lat (lat g) with
                  | Some q => (Some q, Grid (lat g) (lat_agrid g) (Some q) (_fC_agrid g))
                  | None => (None, g)
                  end
        end
    | Centres =>
        match _fC_agrid g with
        | Some q => (Some q, g)
        | None => match fC_from_lat (lat_agrid g) with
                  | Some q => (Some q, Grid (lat g) (lat_agrid g) (_fC g) (Some q))
                  | None => (None, g)
                  end
        end
    end.
  Fixpoint reads (l : list place) (g : grid) : list (option (quantity R)) :=
    match l with [] => [] | p :: l' => fst (read p g) :: reads l' (snd (read p g)) end.
End Coriolis.

(** ** specification *)
(** [q] describes the same points as [l] *)
Definition same_points (q l : quantity R) : Prop :=
  dims q = dims l /\ origin q = origin l /\ extent q = extent l /\ shape (data q) = shape (data l) /\ nhalo q = nhalo l /\ backend q = backend l.
