(** Model of the backends: ndsl/config/backend.py 7-55 (names), 83-118 (Backend), 126-136 (equality, hash), 165-199 (conversions), and of the memory layout of refined transients:
    ndsl/dsl/dace/stree/optimizations/refine_transients.py 58-76 (in _reduce_cartesian_axis_size_to_1).

    The backends of GT4Py are not part of this repository: [registered] gives for a name the device of its storage_info.  DaCe's set_strides_from_layout takes the dimensions from the
    one that varies fastest to the slowest.  The names of the table are in the right case: lower() and upper() (95-98) are left out.  is_fortran_aligned (197-199) asks GT4Py only. *)
From Coq Require Import String Ascii Arith Bool List.
Import ListNotations.
Local Open Scope list_scope.
Local Open Scope nat_scope.

(** 7-38 *)
Inductive strategy := STENCIL | ORCHESTRATION.
Inductive device := CPU | GPU.
Inductive framework := GRIDTOOLS | DACE | PYTHON | NUMPY.
Inductive order := IJK | IKJ | JKI | JIK | KIJ | KJI.
Definition strategy_of (s : string) : option strategy := if string_dec s "st" then Some STENCIL else if string_dec s "orch" then Some ORCHESTRATION else None.
Definition device_of (s : string) : option device := if string_dec s "cpu" then Some CPU else if string_dec s "gpu" then Some GPU else None.
Definition framework_of (s : string) : option framework :=
  if string_dec s "gt" then Some GRIDTOOLS else if string_dec s "dace" then Some DACE else if string_dec s "python" then Some PYTHON else if string_dec s "numpy" then Some NUMPY else None.
Definition order_of (s : string) : option order :=
  if string_dec s "IJK" then Some IJK else if string_dec s "IKJ" then Some IKJ else if string_dec s "JKI" then Some JKI else
  if string_dec s "JIK" then Some JIK else if string_dec s "KIJ" then Some KIJ else if string_dec s "KJI" then Some KJI else None.
(** 41-55 *)
Definition naming : list (string * string) :=
  [("st:python:cpu:IJK", "debug"); ("st:numpy:cpu:IJK", "numpy"); ("st:gt:cpu:IJK", "gt:cpu_kfirst"); ("st:gt:cpu:KJI", "gt:cpu_ifirst"); ("st:gt:gpu:KJI", "gt:gpu");
   ("st:dace:cpu:IJK", "dace:cpu_kfirst"); ("orch:dace:cpu:IJK", "dace:cpu_kfirst"); ("st:dace:cpu:KIJ", "dace:cpu"); ("orch:dace:cpu:KIJ", "dace:cpu");
   ("st:dace:cpu:KJI", "dace:cpu_KJI"); ("orch:dace:cpu:KJI", "dace:cpu_KJI"); ("st:dace:gpu:KJI", "dace:gpu"); ("orch:dace:gpu:KJI", "dace:gpu")]%string.
Fixpoint find (t : list (string * string)) (k : string) : option string := match t with [] => None | (n, x) :: t' => if string_dec n k then Some x else find t' k end.
(** Python: s.split(c) and s.replace(c, d) for single characters *)
Fixpoint split (c : ascii) (s : string) : list string :=
  match s with
  | EmptyString => [EmptyString]
  | String d s' => if Ascii.eqb d c then EmptyString :: split c s' else match split c s' with w :: l => String d w :: l | [] => [String d EmptyString] end
  end.
Fixpoint replace (c d : ascii) (s : string) : string := match s with EmptyString => EmptyString | String e s' => String (if Ascii.eqb e c then d else e) (replace c d s') end.

Record backend := NewBackend { name : string; b_strategy : strategy; b_framework : framework; b_device : device; b_order : order }.
Section GT4Py.
Context (registered : string -> option device).
(** 83-118; None = ValueError *)
Definition make (s : string) : option backend :=
  match find naming s with
  | None => None
  | Some g =>
      match split ":" s with
      | [p0; p1; p2; p3] =>
          match strategy_of p0, framework_of p1, device_of p2, order_of p3 with
          | Some st, Some fr, Some de, Some ord =>
              match registered g with
              | None => None
              | Some d => match de, d with GPU, CPU => None | _, _ => Some (NewBackend s st fr de ord) end
              end
          | _, _, _, _ => None
          end
      | _ => None
      end
  end.
(** 126-133: what a backend is compared with; None = an exception *)
Inductive other := Str (s : string) | Bck (b : backend) | Anything.
Definition equal (b : backend) (o : other) : option bool :=
  match o with
  | Str s => match make s with Some b' => Some (if string_dec (name b) (name b') then true else false) | None => None end
  | Bck b' => Some (if string_dec (name b) (name b') then true else false)
  | Anything => None
  end.
End GT4Py.
(** 165-167 *)
Definition as_gt4py (b : backend) : option string := find naming (name b).
(** 172-173 *)
Definition as_safe_for_path (b : backend) : string := replace ":" "_" (name b).
(** 38: the axes of a loop order from the outermost to the innermost; I, J, K = 0, 1, 2 *)
Definition loops (o : order) : list nat := match o with IJK => [0; 1; 2] | IKJ => [0; 2; 1] | JKI => [1; 2; 0] | JIK => [1; 0; 2] | KIJ => [2; 0; 1] | KJI => [2; 1; 0] end.
Fixpoint index (x : nat) (l : list nat) : nat := match l with [] => 0 | y :: l' => if Nat.eqb y x then 0 else S (index x l') end.
(** 175-180 *)
Definition as_layout_map (o : order) : list nat := map (fun axis => length (loops o) - 1 - index axis (loops o)) [0; 1; 2].
(** 182-189 *)
Definition is_orchestrated (b : backend) : bool := match b_strategy b with ORCHESTRATION => true | _ => false end.
Definition is_stencil (b : backend) : bool := match b_strategy b with STENCIL => true | _ => false end.
Definition is_gpu_backend (b : backend) : bool := match b_device b with GPU => true | _ => false end.

(** ndsl/dsl/dace/orchestration.py 200-235: the axes in the order in which their maps are merged; None = NotImplementedError *)
Definition merges (o : order) : option (list nat) := match o with IJK => Some [0; 1; 2] | KJI => Some [2; 1; 0] | KIJ => Some [2; 0; 1] | _ => None end.

(** refine_transients.py 62-66 *)
Fixpoint set_at (n x : nat) (l : list nat) : list nat := match l, n with [], _ => [] | _ :: l', O => x :: l' | y :: l', S n' => y :: set_at n' x l' end.
(** 68-74, for a shape of at least three dimensions *)
Definition layout (layout_map : list nat) (rank : nat) : list nat :=
  if Nat.eqb rank 3 then layout_map
  else let n := rank - 3 in map (fun d => d + n) layout_map ++ rev (seq 0 n).
(** DaCe: set_strides_from_layout: the strides and the total size *)
Definition strides_from_layout (shape : list nat) (dims : list nat) : (nat -> nat) * nat :=
  fold_left (fun (s : (nat -> nat) * nat) d => ((fun e => if Nat.eqb e d then snd s else fst s e), snd s * nth d shape 1)) dims ((fun _ => 1), 1).
(** 58-76 *)
Definition refine (o : order) (axis : nat) (shape : list nat) : list nat * ((nat -> nat) * nat) :=
  let shape' := set_at axis 1 shape in (shape', strides_from_layout shape' (layout (as_layout_map o) (length shape'))).

(** Specification: the place in memory of the element with the indices idx *)
Definition address (rank : nat) (strides : nat -> nat) (idx : nat -> nat) : nat := list_sum (map (fun d => idx d * strides d) (seq 0 rank)).
