(** Model of loop merging on schedule trees: ndsl/dsl/dace/stree/optimizations/axis_merge.py:25-249, 324-415 and
    memlet_helpers.py:8-52, 92-129.

    A schedule tree runs to a trace of tasklet executions with the memory ranges they access, and the trace is run on a memory.
    Maps run in ascending order.  Simplified: a map has one parameter and constant bounds; conditions depend on one symbol, not on memory;
    subsets have step 1; library calls are tasklets; a for loop is a map; the repetition of passes (398-467) is left out: merges are
    modelled one at a time. *)
From Coq Require Export String Ascii.
From Verif Require Import Base.

(** an index expression: symbol + constant, or a constant *)
Definition idx := (option string * Z)%type.
Record memlet := mkMemlet { m_data : string; m_sub : list (idx * idx) }.        (* begin, end (inclusive) of each dimension *)
(** a tasklet: what it reads and writes, and the symbols its code mentions *)
Record task := mkTask { t_id : nat; t_in : list memlet; t_out : list memlet; t_code : list string }.
Record range := mkRange { r_lo : Z; r_hi : Z; r_step : Z }.                     (* bounds inclusive *)
Record cond := mkCond { c_sym : string; c_test : Z -> bool }.
Inductive node :=
| Task (t : task)
| Map (sym : string) (r : range) (children : list node)
| If (c : cond) (children : list node).

(** ** running a tree *)
Definition env := string -> option Z.
Definition bind_sym (e : env) (s : string) (k : Z) : env := fun x => if String.eqb x s then Some k else e x.
Definition eval (e : env) (i : idx) : option Z :=
  match fst i with Some s => option_map (fun v => v + snd i) (e s) | None => Some (snd i) end.
(** ranges of memory: data and bounds *)
Definition box := (string * list (Z * Z))%type.
Fixpoint all_some {A} (l : list (option A)) : option (list A) :=
  match l with [] => Some [] | x :: l' => match x, all_some l' with Some a, Some r => Some (a :: r) | _, _ => None end end.
Definition resolve (e : env) (m : memlet) : option box :=
  option_map (pair (m_data m)) (all_some (map (fun p => match eval e (fst p), eval e (snd p) with Some a, Some b => Some (a, b) | _, _ => None end) (m_sub m))).
Record event := mkEvent { ev_id : nat; ev_reads : list box; ev_writes : list box; ev_code : list Z }.
(** None: an undefined symbol *)
Definition run_task (e : env) (t : task) : option event :=
  match all_some (map (resolve e) (t_in t)), all_some (map (resolve e) (t_out t)), all_some (map e (t_code t)) with
  | Some r, Some w, Some c => Some (mkEvent (t_id t) r w c)
  | _, _, _ => None
  end.
Definition iterations (r : range) : list Z :=
  map (fun n => r_lo r + Z.of_nat n * r_step r) (seq 0 (Z.to_nat ((r_hi r - r_lo r) / r_step r + 1))).
Fixpoint trace (e : env) (n : node) : list (option event) :=
  match n with
  | Task t => [run_task e t]
  | Map s r cs => flat_map (fun k => flat_map (trace (bind_sym e s k)) cs) (iterations r)
  | If c cs => match e (c_sym c) with
               | Some v => if c_test c v then flat_map (trace e) cs else []
               | None => [None]
               end
  end.
Definition traces (e : env) (l : list node) : list (option event) := flat_map (trace e) l.

(** ** guards *)

(** 68-79 _execution_condition *)
Definition guard_cond (s : string) (r : range) : cond :=
  mkCond s (fun k => (r_lo r <=? k) && (k <=? r_hi r) && ((k - r_lo r) mod r_step r =? 0)).
Definition range_eqb (a b : range) : bool := (r_lo a =? r_lo b) && (r_hi a =? r_hi b) && (r_step a =? r_step b).
Definition is_map (n : node) : bool := match n with Map _ _ _ => true | _ => false end.
(** 81-99 visit_MapScope; called on maps only *)
Fixpoint guard (s : string) (merged orig : range) (n : node) : node :=
  match n with
  | Map p r cs =>
      if forallb is_map cs then Map p r (map (guard s merged orig) cs)
      else if range_eqb merged orig then n else Map p r [If (guard_cond s orig) cs]
  | _ => n
  end.

(** ** renaming *)

(** 112-144 ReplaceAxisSymbol: memlets and map parameters; conditions and tasklet code are left as they are *)
Definition rename_idx (old new : string) (i : idx) : idx :=
  match fst i with Some s => (Some (if String.eqb s old then new else s), snd i) | None => i end.
Definition rename_memlet (old new : string) (m : memlet) : memlet :=
  mkMemlet (m_data m) (map (fun p => (rename_idx old new (fst p), rename_idx old new (snd p))) (m_sub m)).
Definition rename_task (old new : string) (t : task) : task :=
  mkTask (t_id t) (map (rename_memlet old new) (t_in t)) (map (rename_memlet old new) (t_out t)) (t_code t).
Fixpoint rename (old new : string) (n : node) : node :=
  match n with
  | Task t => Task (rename_task old new t)
  | Map p r cs => Map (if String.eqb p old then new else p) r (map (rename old new) cs)
  | If c cs => If c (map (rename old new) cs)
  end.

(** ** dependency check *)
Inductive axis := AxI | AxJ | AxK.
Definition axis_str (a : axis) : string := match a with AxI => "__i" | AxJ => "__j" | AxK => "__k" end%string.
Definition axis_index (a : axis) : nat := match a with AxI => 0 | AxJ => 1 | AxK => 2 end%nat.

(** memlet_helpers.py:92-129 MemletCollector *)
Fixpoint writes_of (n : node) : list memlet :=
  match n with Task t => t_out t | Map _ _ cs => flat_map writes_of cs | If _ cs => flat_map writes_of cs end.
Fixpoint reads_of (n : node) : list memlet :=
  match n with Task t => t_in t | Map _ _ cs => flat_map reads_of cs | If _ cs => flat_map reads_of cs end.
Definition idx_eqb (a b : idx) : bool :=
  match fst a, fst b with
  | Some x, Some y => String.eqb x y && (snd a =? snd b)
  | None, None => snd a =? snd b
  | _, _ => false
  end.
(** memlet_helpers.py:21-52; a read with too few dimensions would raise (treated as a refusal) *)
Definition no_dependencies (first second : node) (a : axis) : bool :=
  forallb (fun w =>
    match nth_error (m_sub w) (axis_index a) with
    | None => true                                     (* the dimension does not exist: continue *)
    | Some (wb, _) =>
        forallb (fun r => negb (String.eqb (m_data w) (m_data r)) ||
                          match nth_error (m_sub r) (axis_index a) with Some (rb, _) => idx_eqb wb rb | None => false end)
                (reads_of second)
    end) (writes_of first).
(** axis_merge.py:25-28 *)
Definition is_axis_map (n : node) (a : axis) : bool := match n with Map s _ _ => String.prefix (axis_str a) s | _ => false end.
(** 35-53 *)
Definition can_merge (first second : node) (a : axis) : bool :=
  is_axis_map first a && is_axis_map second a && no_dependencies first second a.

(** ** merging two neighbouring maps *)

(** 346-359 *)
Definition merged_range (a b : range) : range := mkRange (Z.min (r_lo a) (r_lo b)) (Z.max (r_hi a) (r_hi b)) 1.
Definition children_of (n : node) : list node := match n with Map _ _ cs => cs | If _ cs => cs | Task _ => [] end.
(** 336-396, the part of _map_overcompute_merge after the early exits; None: not merged *)
Definition merge (first second : node) (a : axis) : option node :=
  match first, second with
  | Map s1 r1 _, Map s2 r2 _ =>
      if can_merge first second a then
        let m := merged_range r1 r2 in
        let cs := children_of (guard s1 m r1 first) ++ children_of (guard s1 m r2 second) in
        Some (if String.eqb s2 s1 then Map s1 m cs else rename s2 s1 (Map s1 m cs))
      else None
  | _, _ => None
  end.
(** 222-249 _push_tasklet_down: the tasklet becomes the first child of the map which follows *)
Definition push_tasklet (t : task) (next : node) : option node :=
  match next with Map s r cs => Some (Map s r (Task t :: cs)) | _ => None end.

(** 197-214 _for_merge: a loop which is not over a cartesian axis changes place with the only map below it (the loop is a Map here) *)
Definition swap_for (n : node) : option node :=
  match n with Map v r [Map s r' cs] => Some (Map s r' [Map v r cs]) | _ => None end.

(** ** running a trace on a memory *)
Definition in_box (d : string) (i : list Z) (b : box) : bool :=
  String.eqb d (fst b) && (Nat.eqb (length i) (length (snd b))) &&
  forallb (fun p => (fst (snd p) <=? fst p) && (fst p <=? snd (snd p))) (combine i (snd b)).
Definition in_boxes (d : string) (i : list Z) (l : list box) : bool := existsb (in_box d i) l.
Section Memory.
  Context {V : Type}.
  Definition memory := string -> list Z -> V.
  (** what an event stores, given the memory it reads *)
  Variable sem : event -> memory -> memory.
  Definition exec1 (m : memory) (ev : event) : memory := fun d i => if in_boxes d i (ev_writes ev) then sem ev m d i else m d i.
  Definition exec (m : memory) (l : list event) : memory := fold_left exec1 l m.
  (** None: an undefined symbol was met *)
  Definition exec_trace (m : memory) (l : list (option event)) : option memory := option_map (exec m) (all_some l).
  (** an event depends on nothing but what it declares to read *)
  Definition reads_only_declared : Prop := forall ev m m',
    (forall d i, in_boxes d i (ev_reads ev) = true -> m d i = m' d i) -> forall d i, sem ev m d i = sem ev m' d i.
End Memory.

(** ** specification for C42: which symbols a tree mentions *)
Definition idx_uses (s : string) (i : idx) : bool := match fst i with Some x => String.eqb x s | None => false end.
Definition memlet_uses (s : string) (m : memlet) : bool := existsb (fun p => idx_uses s (fst p) || idx_uses s (snd p)) (m_sub m).
Fixpoint indexes_with (s : string) (n : node) : bool :=      (* in a memlet *)
  match n with
  | Task t => existsb (memlet_uses s) (t_in t ++ t_out t)
  | Map _ _ cs => existsb (indexes_with s) cs
  | If _ cs => existsb (indexes_with s) cs
  end.
Fixpoint tests_or_computes_with (s : string) (n : node) : bool :=      (* in a condition or in tasklet code *)
  match n with
  | Task t => existsb (String.eqb s) (t_code t)
  | Map _ _ cs => existsb (tests_or_computes_with s) cs
  | If c cs => String.eqb s (c_sym c) || existsb (tests_or_computes_with s) cs
  end.
Fixpoint loops_over (s : string) (n : node) : bool :=
  match n with
  | Task t => false
  | Map p _ cs => String.eqb s p || existsb (loops_over s) cs
  | If _ cs => existsb (loops_over s) cs
  end.
