(** Model of the analyses of orchestrated programs: ndsl/dsl/dace/utils.py 39-47 (_is_ref), 53-129 (memory_static_analysis), 132-167
    (report_memory_static_analysis) and 212-314 (kernel_theoretical_timing).

    A program of DaCe (which is not part of this repository) is a tree: its arrays, the names of the access nodes of its own states, the names read by the conditions and assignments
    between its states, its maps, and the programs nested into it, each with a flag: is it inside of a map.  Simplified: the nodes of a program are grouped by kind, which changes only the
    order of the results; sizes are numbers or symbolic, and a sum with a symbolic part is symbolic; numbers are exact.  None = an exception. *)
From Coq Require Import String QArith.
From Verif Require Import Base Dict.
Local Open Scope Z_scope.
Local Open Scope list_scope.

(** dace.data.Array: shape, total_size (which includes padding), bytes of the element type, storage, transient, pool *)
Record array := Array { a_shape : list Z; a_total : Z; a_bytes : Z; a_storage : string; a_transient : bool; a_pool : bool }.
Inductive size := Known (n : Z) | Symbolic.
(** an edge with its memlet: the array and the sizes of its subset; None = an empty memlet *)
Definition edge : Type := option (string * list size).
(** a map: label, is there a map around it in its own state, edges into its entry and out of its exit *)
Record kmap := Kmap { m_label : string; m_inner : bool; m_in : list edge; m_out : list edge }.
Inductive sdfg := Sdfg (arrays : dict array) (accesses conditions : list string) (maps : list kmap) (nested : list (bool * sdfg)).
Definition arrays (s : sdfg) := let 'Sdfg a _ _ _ _ := s in a.
Definition accesses (s : sdfg) := let 'Sdfg _ a _ _ _ := s in a.
Definition conditions (s : sdfg) := let 'Sdfg _ _ c _ _ := s in c.
Definition maps (s : sdfg) := let 'Sdfg _ _ _ m _ := s in m.
Definition nested (s : sdfg) := let 'Sdfg _ _ _ _ n := s in n.

(** DaCe: a program and all programs nested into it.  The path stands for the identity of the object *)
Definition path : Type := list nat.
Fixpoint sdfgs (p : path) (s : sdfg) : list (path * sdfg) :=
  let 'Sdfg _ _ _ _ n := s in
  (p, s) :: (fix go (i : nat) (l : list (bool * sdfg)) := match l with [] => [] | (_, c) :: l' => sdfgs (p ++ [i]) c ++ go (S i) l' end) O n.
Definition path_eqb (p q : path) : bool := if list_eq_dec Nat.eq_dec p q then true else false.

(** 39-47: the access nodes of all_nodes_recursive() with the parents of their states *)
Definition is_ref (p : path) (sd : sdfg) (aname : string) : bool :=
  existsb (fun x => path_eqb (fst x) p && String.eqb aname (snd x)) (flat_map (fun c => map (fun n => (fst c, n)) (accesses (snd c))) (sdfgs p sd)).

(** 53-60 *)
Record array_report := AReport { d_name : string; d_size : Z; d_ref : bool; d_transient : bool; d_pool : bool; d_top : bool }.
(** 63-70 *)
Record report := Report { r_ref : Z; r_unref : Z; r_pool : Z; r_top : Z; r_details : list array_report }.
(** 90-127 for an array that is counted *)
Definition count (top ref : bool) (aname : string) (a : array) (r : report) : report :=
  let n := a_total a * a_bytes a in
  Report (if ref then r_ref r + n else r_ref r) (if ref then r_unref r else r_unref r + n)
         (if a_pool a then r_pool r + n else r_pool r) (if top then r_top r + n else r_top r)
         (r_details r ++ [AReport aname n ref (a_transient a) (a_pool a) top]).
(** 86-127 *)
Definition visit (allocations : option (dict report)) (x : path * sdfg * (string * array)) : option (dict report) :=
  do al <- allocations;
  let '(p, sd, (aname, a)) := x in
  let ref := is_ref p sd aname in
  if negb (path_eqb p []) && a_transient a then do r <- get al (a_storage a); Some (put al (a_storage a) (count false ref aname a r))
  else if path_eqb p [] then do r <- get al (a_storage a); Some (put al (a_storage a) (count true ref aname a r))
  else Some al.
Definition arrays_recursive (s : sdfg) : list (path * sdfg * (string * array)) := flat_map (fun c => map (fun x => (fst c, snd c, x)) (arrays (snd c))) (sdfgs [] s).
(** 73-129; storage_types = the members of dace.StorageType *)
Definition memory_static_analysis (storage_types : list string) (s : sdfg) : option (dict report) :=
  fold_left visit (arrays_recursive s) (Some (map (fun t => (t, Report 0 0 0 0 [])) storage_types)).

(** 138-151: the storages that are shown *)
Definition report_memory_static_analysis (allocations : dict report) : dict report :=
  filter (fun x => negb (r_ref (snd x) =? 0) || (0 <? r_top (snd x))) allocations.

(** 261-268 with DaCe's get_parent_map, which looks for a map around the nested programs, too *)
Fixpoint topmaps (inside : bool) (s : sdfg) : list (sdfg * kmap) :=
  let 'Sdfg _ _ _ m n := s in
  map (fun k => (s, k)) (filter (fun k => negb (inside || m_inner k)) m)
  ++ (fix go (l : list (bool * sdfg)) := match l with [] => [] | (b, c) :: l' => topmaps (inside || b) c ++ go l' end) n.

Definition add (x y : size) : size := match x, y with Known a, Known b => Known (a + b) | _, _ => Symbolic end.
Definition mul (x y : size) : size := match x, y with Known a, Known b => Known (a * b) | _, _ => Symbolic end.
(** 279-280: an empty memlet has no subset *)
Definition edge_bytes (s : sdfg) (e : edge) : option size :=
  match e with
  | None => None
  | Some (name, sizes) => do a <- get (arrays s) name; Some (mul (fold_left mul sizes (Known 1)) (Known (a_bytes a)))
  end.
(** 277-290 *)
Fixpoint total (s : sdfg) (es : list edge) (acc : size) : option size :=
  match es with [] => Some acc | e :: es' => do n <- edge_bytes s e; total s es' (add acc n) end.
(** 292-312 for one map.  295-298: a symbolic number is divided, too, but 312 takes its float, which raises *)
Definition time_map (bandwidth : Q) (result : option (dict Q)) (x : sdfg * kmap) : option (dict Q) :=
  do res <- result;
  do n <- total (fst x) (m_in (snd x)) (Known 0);
  do m <- total (fst x) (m_out (snd x)) (Known 0);
  match add n m with
  | Symbolic => None
  | Known b =>
      if Qeq_bool bandwidth 0 then None else
      let new := (inject_Z b / bandwidth * 1000000)%Q in
      Some (put res (m_label (snd x)) (match get res (m_label (snd x)) with Some old => if Qle_bool old new then new else old | None => new end))
  end.
(** 226-253; dt = the median of the measured times of one copy, itemsize = that of Float *)
Definition bandwidth_in_bytes_s (dt : Q) (itemsize : Z) (hardware_bw_in_GB_s : option Q) (s : sdfg) : option Q :=
  match hardware_bw_in_GB_s with
  | None => do w <- get (arrays s) "__g_self__w"%string; Some (inject_Z (fold_left Z.mul (a_shape w) 1 * itemsize * 8)%Z / dt)%Q
  | Some b => Some (b * 1024 * 1024 * 1024)%Q
  end.
(** 254-258 *)
Definition label (hardware_bw_in_GB_s : option Q) : string :=
  match hardware_bw_in_GB_s with
  | Some b => if Qeq_bool b 0 then "Given hardware bandwidth" else "Hardware bandwidth computed"
  | None => "Given hardware bandwidth"
  end%string.
(** 212-314 *)
Definition kernel_theoretical_timing (dt : Q) (itemsize : Z) (hardware_bw_in_GB_s : option Q) (s : sdfg) : option (dict Q) :=
  do b <- bandwidth_in_bytes_s dt itemsize hardware_bw_in_GB_s s;
  fold_left (time_map b) (topmaps false s) (Some []).

(** Specification. *)
(** some access node of the program itself is for the array *)
Definition accessed (s : sdfg) (name : string) : bool := if in_dec string_dec name (accesses s) then true else false.
(** the line for one array of a program *)
Definition line (top : bool) (s : sdfg) (x : string * array) : array_report :=
  let '(name, a) := x in AReport name (a_total a * a_bytes a) (accessed s name) (a_transient a) (a_pool a) top.
Definition stored (t : string) (x : string * array) : bool := String.eqb (a_storage (snd x)) t.
(** the lines of a storage: the transient arrays of a nested program and of those nested into it ... *)
Fixpoint nested_lines (t : string) (s : sdfg) : list array_report :=
  let 'Sdfg a _ _ _ n := s in
  map (line false s) (filter (fun x => stored t x && a_transient (snd x)) a) ++ flat_map (fun x => nested_lines t (snd x)) n.
(** ... and all arrays of the program that is analysed *)
Definition lines (t : string) (s : sdfg) : list array_report :=
  map (line true s) (filter (stored t) (arrays s)) ++ flat_map (fun x => nested_lines t (snd x)) (nested s).
Definition bytes (p : array_report -> bool) (l : list array_report) : Z := fold_right Z.add 0 (map d_size (filter p l)).
(** programs inside of a program, itself included *)
Inductive part_of : sdfg -> sdfg -> Prop :=
| part_self s : part_of s s
| part_nested s b c c' : In (b, c) (nested s) -> part_of c' c -> part_of c' s.
(** maps that are in no other map, with their program *)
Inductive outer : sdfg -> sdfg -> kmap -> Prop :=
| outer_own s k : In k (maps s) -> m_inner k = false -> outer s s k
| outer_nested s c c' k : In (false, c) (nested s) -> outer c c' k -> outer s c' k.
(** the bytes moved over edges that all have known sizes *)
Inductive moves (s : sdfg) : list edge -> Z -> Prop :=
| moves_none : moves s [] 0
| moves_edge name a ns es n : get (arrays s) name = Some a -> moves s es n ->
    moves s (Some (name, map Known ns) :: es) (fold_right Z.mul 1 ns * a_bytes a + n).
