(** Model of the vertical grid: VerticalGridData of ndsl/grid/helper.py 126-236 and the properties of GridData that reach it
    (536-594).

    A quantity along the interfaces or the layers is the list of the values of its compute domain; arithmetic is exact.
    Simplified: arrays of different sizes raise (numpy would repeat an array of size 1); the Float cast of ptop is left out. *)
From Coq Require Export Reals List Lra.
From Coq Require Export Lia.
Export ListNotations.
Open Scope R_scope.

(** numpy: an operation on two arrays, element by element; None = ValueError *)
Definition zip (f : R -> R -> R) (a b : list R) : option (list R) :=
  if (length a =? length b)%nat then Some (map (fun '(x, y) => f x y) (combine a b)) else None.
(** a[1:] and a[:-1] *)
Definition later (a : list R) : list R := tl a.
Definition earlier (a : list R) : list R := removelast a.

(** 134-145: the fields and the caches *)
Record vert := Vert { ak : list R; bk : list R; _p_interface : option (list R); _p : option (list R); _dp_ref : option (list R) }.
(** 147-152, 142-145 a new object *)
Definition new (a b : list R) : vert := Vert a b None None None.

(** 177-180 *)
Definition p_ref : R := 100000.

Notation "'do' x <- a ; b" := (match a with Some x => b | None => None end) (at level 62, x pattern, right associativity).
(** 182-193: the value and the object afterwards *)
Definition p_interface (v : vert) : option (list R * vert) :=
  match _p_interface v with
  | Some x => Some (x, v)
  | None => do x <- zip Rplus (ak v) (map (fun b => b * p_ref) (bk v)); Some (x, Vert (ak v) (bk v) (Some x) (_p v) (_dp_ref v))
  end.
(** 195-210 *)
Definition p (v : vert) : option (list R * vert) :=
  match _p v with
  | Some x => Some (x, v)
  | None =>
      do (q, v) <- p_interface v;
      do d <- zip Rminus (later q) (earlier q);
      do r <- zip Rdiv (later q) (earlier q);
      do x <- zip Rdiv d (map ln r);
      Some (x, Vert (ak v) (bk v) (_p_interface v) (Some x) (_dp_ref v))
  end.
(** 212-227 *)
Definition dp (v : vert) : option (list R * vert) :=
  match _dp_ref v with
  | Some x => Some (x, v)
  | None =>
      do da <- zip Rminus (later (ak v)) (earlier (ak v));
      do db <- zip Rminus (later (bk v)) (earlier (bk v));
      do x <- zip Rplus da (map (fun b => b * p_ref) db);
      Some (x, Vert (ak v) (bk v) (_p_interface v) (_p v) (Some x))
  end.
(** 229-236; None = ValueError, or IndexError when there are no interfaces *)
Definition ptop (v : vert) : option R :=
  do b <- hd_error (bk v);
  if Req_EM_T b 0 then hd_error (ak v) else None.

(** what a user can do with a GridData: 536-594.  Reading `ks` raises (VerticalGridData has none, 575-577) and so does setting `ptop`
    (it is a property without setter, 588-590). *)
Inductive op :=
| Get_p_interface | Get_p | Get_dp | Get_ptop | Get_ks
| Set_ak (a : list R) | Set_bk (b : list R) | Set_ptop (x : R).
(** None = an exception; the object is then as before *)
Definition step (v : vert) (o : op) : option (list R) * vert :=
  match o with
  | Get_p_interface => match p_interface v with Some (x, v) => (Some x, v) | None => (None, v) end
  | Get_p => match p v with Some (x, v) => (Some x, v) | None => (None, v) end
  | Get_dp => match dp v with Some (x, v) => (Some x, v) | None => (None, v) end
  | Get_ptop => (do x <- ptop v; Some [x], v)
  | Get_ks => (None, v)
  | Set_ak a => (Some [], Vert a (bk v) (_p_interface v) (_p v) (_dp_ref v))
  | Set_bk b => (Some [], Vert (ak v) b (_p_interface v) (_p v) (_dp_ref v))
  | Set_ptop _ => (None, v)
  end.
Fixpoint run (v : vert) (ops : list op) : list (option (list R)) * vert :=
  match ops with
  | [] => ([], v)
  | o :: ops => let '(x, v) := step v o in let '(l, v) := run v ops in (x :: l, v)
  end.

(** *** specification *)
(** the pressure (Pa) at interface k for a surface pressure of 1000 hPa *)
Definition pressure (a b : list R) (k : nat) : R := nth k a 0 + nth k b 0 * 100000.
Fixpoint sum (l : list R) : R := match l with [] => 0 | x :: l => x + sum l end.
Definition is_set (o : op) : bool := match o with Set_ak _ | Set_bk _ => true | _ => false end.
