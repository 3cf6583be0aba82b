(** Model of the refinement of transients on schedule trees: ndsl/dsl/dace/stree/optimizations/refine_transients.py.

    Memlets, tasklets, traces as in MergeModel; here a scope says whether it is a map (with the identity of its MapEntry) or a for
    loop, and a tasklet computes the values it stores from the values it reads.  Simplified: index expressions are symbol + constant
    or constant, and the union of ranges has size one exactly if all begins and ends are the same expression (sympy's simplification is
    left out); one transient and one axis at a time (the checks of all of them are made on the original tree); strides, lifetimes and
    the warning are left out. *)
From Coq Require Export String Ascii.
From Verif Require Import Base MergeModel.

Inductive kind := AMap (entry : nat) | AFor.
Inductive snode :=
| STask (t : task)
| Scope (k : kind) (sym : string) (r : range) (children : list snode)
| SIf (c : cond) (children : list snode).

Fixpoint strace (e : env) (n : snode) : list (option event) :=
  match n with
  | STask t => [run_task e t]
  | Scope _ s r cs => flat_map (fun k => flat_map (strace (bind_sym e s k)) cs) (iterations r)
  | SIf c cs => match e (c_sym c) with
                | Some v => if c_test c v then flat_map (strace e) cs else []
                | None => [None]
                end
  end.
Definition straces (e : env) (l : list snode) : list (option event) := flat_map (strace e) l.

(** ** what is collected, 80-165 *)
Definition task_memlets (t : task) : list memlet := t_in t ++ t_out t.
Definition of_data (d : string) (m : memlet) : bool := String.eqb (m_data m) d.
Fixpoint accesses (d : string) (n : snode) : list memlet :=
  match n with
  | STask t => filter (of_data d) (task_memlets t)
  | Scope _ _ _ cs => flat_map (accesses d) cs
  | SIf _ cs => flat_map (accesses d) cs
  end.
(** 101-115 _find_first_map_or_loop: the innermost map over the axis; for loops are passed over *)
Fixpoint maps_of (d : string) (a : axis) (inner : option nat) (n : snode) : list nat :=
  match n with
  | STask t => if existsb (of_data d) (task_memlets t) then match inner with Some e => [e] | None => [] end else []
  | Scope (AMap e) s _ cs => flat_map (maps_of d a (if String.prefix (axis_str a) s then Some e else inner)) cs
  | Scope AFor _ _ cs => flat_map (maps_of d a inner) cs
  | SIf _ cs => flat_map (maps_of d a inner) cs
  end.

(** 26-66: the union of all accesses has one element on the axis *)
Definition on_axis (a : axis) (m : memlet) : option (idx * idx) := nth_error (m_sub m) (axis_index a).
Definition one_element (a : axis) (ms : list memlet) : bool :=
  match ms with
  | [] => false                                                               (* read_write_range is None *)
  | m :: _ => match on_axis a m with
              | Some (x, _) => forallb (fun m' => match on_axis a m' with Some (b, e) => idx_eqb b x && idx_eqb e x | None => false end) ms
              | None => false
              end
  end.
(** 263-286: the axis is reduced *)
Definition refinable (d : string) (a : axis) (l : list snode) : bool :=
  (List.length (nodup Nat.eq_dec (flat_map (maps_of d a None) l)) <=? 1)%nat && one_element a (flat_map (accesses d) l).

(** ** the rewriting of memlets, 168-200 *)
Fixpoint set_nth {A} (n : nat) (x : A) (l : list A) : list A :=
  match l, n with
  | [], _ => []
  | _ :: l', O => x :: l'
  | y :: l', S n' => y :: set_nth n' x l'
  end.
Definition zero_idx : idx := (None, 0).
Definition rebuild_memlet (d : string) (a : axis) (m : memlet) : memlet :=
  if of_data d m then mkMemlet (m_data m) (set_nth (axis_index a) (zero_idx, zero_idx) (m_sub m)) else m.
Definition rebuild_task (d : string) (a : axis) (t : task) : task :=
  mkTask (t_id t) (map (rebuild_memlet d a) (t_in t)) (map (rebuild_memlet d a) (t_out t)) (t_code t).
Fixpoint rebuild (d : string) (a : axis) (n : snode) : snode :=
  match n with
  | STask t => STask (rebuild_task d a t)
  | Scope k s r cs => Scope k s r (map (rebuild d a) cs)
  | SIf c cs => SIf c (map (rebuild d a) cs)
  end.
(** None: not refined *)
Definition refine (d : string) (a : axis) (l : list snode) : option (list snode) :=
  if refinable d a l then Some (map (rebuild d a) l) else None.

(** ** running a trace: a tasklet stores, at element j of its o-th output, a function of the values it reads *)
Section Run.
  Context {V : Type}.
  Variable f : nat -> list Z -> list (list V) -> nat -> nat -> V.
  Definition mem := string -> list Z -> V.
  (** the elements of a range, in C order *)
  Fixpoint points (b : list (Z * Z)) : list (list Z) :=
    match b with
    | [] => [[]]
    | (lo, hi) :: b' => flat_map (fun x => map (cons x) (points b')) (zrange lo (hi + 1))
    end.
  Definition read_box (m : mem) (b : box) : list V := map (m (fst b)) (points (snd b)).
  Definition enum {A} (l : list A) : list (nat * A) := combine (seq 0 (List.length l)) l.
  Definition stores (m : mem) (ev : event) : list (string * list Z * V) :=
    let ins := map (read_box m) (ev_reads ev) in
    flat_map (fun ob => map (fun jp => (fst (snd ob), snd jp, f (ev_id ev) (ev_code ev) ins (fst ob) (fst jp))) (enum (points (snd (snd ob)))))
             (enum (ev_writes ev)).
  Definition put1 (m : mem) (s : string * list Z * V) : mem :=
    fun d i => if String.eqb d (fst (fst s)) && (if list_eq_dec Z.eq_dec i (snd (fst s)) then true else false) then snd s else m d i.
  Definition run1 (m : mem) (ev : event) : mem := fold_left put1 (stores m ev) m.
  Definition run (m : mem) (l : list event) : mem := fold_left run1 l m.
End Run.

(** ** specification *)
(** elements an event reads and writes *)
Definition reads_cell (ev : event) (d : string) (i : list Z) : Prop := exists b, In (d, b) (ev_reads ev) /\ In i (points b).
Definition writes_cell (ev : event) (d : string) (i : list Z) : Prop := exists b, In (d, b) (ev_writes ev) /\ In i (points b).
(** every element of d which is read has been written before, in this list of events *)
Definition written_first (d : string) (l : list event) : Prop :=
  forall before ev after i, l = before ++ ev :: after -> reads_cell ev d i -> exists w, In w before /\ writes_cell w d i.
Fixpoint binds (s : string) (n : snode) : bool :=
  match n with
  | STask _ => false
  | Scope _ s' _ cs => String.eqb s' s || existsb (binds s) cs
  | SIf _ cs => existsb (binds s) cs
  end.
(** d is used only inside scopes over s, where every iteration writes what it reads *)
Inductive private (d s : string) : snode -> Prop :=
| Unused n : accesses d n = [] -> private d s n
| InScope k r cs : existsb (binds s) cs = false ->
    (forall e x evs, all_some (straces (bind_sym e s x) cs) = Some evs -> written_first d evs) -> private d s (Scope k s r cs)
| Deeper k s' r cs : s' <> s -> Forall (private d s) cs -> private d s (Scope k s' r cs)
| DeeperIf c cs : Forall (private d s) cs -> private d s (SIf c cs).
