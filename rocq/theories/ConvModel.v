(** Model of converting serialized data of the Fortran model to NetCDF and of reading it back: ndsl/stencils/testing/serialbox_to_netcdf.py
    46-262, ndsl/stencils/testing/savepoint.py 11-41, 78-92.

    One savepoint name at a time: a serialbox file has for it a list of savepoints (calls), each of which has fields.  Left out: the
    directories, the namelist's text, element types (integers cannot be NaN; the type of rank 0 is used for all), compression, and
    serialbox itself.  None = an exception. *)
From Coq Require Import Decimal DecimalString.
From Verif Require Import Base Dict.

Local Open Scope nat_scope.

Section Conv.
Context {V : Type} (nan zero : V) (huge : V -> bool).     (* huge x = (x == 1e40) *)

(** numpy arrays; sizes of axes, elements by index *)
Record arr := Arr { shape : list nat; elt : list nat -> V }.
(** 48 len(data.flatten()) *)
Definition size (s : list nat) : nat := fold_right Nat.mul 1 s.

(** 46-51: serializer.read gives arrays with at least one axis *)
Definition read_serialized_data (a : arr) : option arr :=
  if size (shape a) =? 1
  then match shape a with [] => None | _ :: s => Some (Arr s (fun i => elt a (0 :: i))) end
  else Some (Arr (shape a) (fun i => if huge (elt a i) then zero else elt a i)).

(** 61-65 *)
Definition decimal (n : nat) : string := NilEmpty.string_of_uint (Nat.to_uint n).
Definition serializer_name (data_name : option string) (rank : nat) : string :=
  match data_name with Some n => if (n =? "")%string then ("Generator_rank" ++ decimal rank)%string else n | None => ("Generator_rank" ++ decimal rank)%string end.

(** 84-90 *)
Record namelist := Namelist { grid_type : nat; npx : nat; npy : nat; layout : nat * nat }.
Definition total_ranks (n : namelist) : nat := if grid_type n <=? 3 then 6 * fst (layout n) * snd (layout n) else fst (layout n) * snd (layout n).
Definition tile_nx (n : namelist) : nat := (npx n - 1) / fst (layout n).
Definition tile_ny (n : namelist) : nat := (npy n - 1) / snd (layout n).

(** a loop in which every step may raise *)
Fixpoint every {A} (l : list (option A)) : option (list A) := match l with [] => Some [] | x :: l' => do a <- x; do r <- every l'; Some (a :: r) end.
(** 127 np.array of arrays needs them to have one shape *)
Fixpoint same_shapes (s : list nat) (l : list arr) : bool := match l with [] => true | a :: l' => if list_eq_dec Nat.eq_dec (shape a) s then same_shapes s l' else false end.

(** 126-143; np.array refuses arrays of different shapes *)
Definition merge_blocks (nx ny : nat) (l : list arr) : option (list arr) :=
  match l with
  | a :: _ :: _ =>
      if same_shapes (shape a) l then
        match shape a with
        | n :: s =>
            if nx * ny =? length l * n
            then Some [Arr (nx :: ny :: s) (fun i => match i with
                         | p :: q :: r => let k := p * ny + q in match nth_error l (k / n) with Some b => elt b (k mod n :: r) | None => nan end
                         | _ => nan end)]
            else Some [a]
        | [] => Some [a]
        end
      else None
  | _ => Some l
  end.

(** 111-143 what is kept of a variable on one rank; [before] = what was kept on the rank before.  112-115: numbers that are not arrays cannot be set to NaN *)
Definition rank_variable (merge : bool) (nx ny : nat) (before : option (dict (list arr))) (calls : list (dict arr)) (name : string) : option (list arr) :=
  do first <- nth_error calls 0;
  match get first name with
  | None =>
      do b <- before; do l <- get b name; do a <- nth_error l 0;
      match shape a with [] => None | _ => Some [Arr (shape a) (fun _ => nan)] end
  | Some _ =>
      do l <- every (map (fun d => do a <- get d name; read_serialized_data a) calls);
      if merge then merge_blocks nx ny l else Some l
  end.
(** 105-144 *)
Fixpoint rank_list (merge : bool) (nx ny : nat) (names : list string) (before : option (dict (list arr))) (ranks : list (list (dict arr))) : option (list (dict (list arr))) :=
  match ranks with
  | [] => Some []
  | calls :: ranks' =>
      do d <- every (map (fun n => do l <- rank_variable merge nx ny before calls n; Some (n, l)) names);
      do r <- rank_list merge nx ny names (Some d) ranks';
      Some (d :: r)
  end.

(** a variable of the file: the size of its dimension "rank", the sizes of its own dimensions, the elements by savepoint and rank *)
Record var := Var { v_ranks : nat; v_shape : list nat; v_elt : nat -> nat -> list nat -> V }.
(** assignment to all of an array, with xarray's and numpy's broadcasting: as many axes or fewer, sizes equal or 1 *)
Fixpoint fits (a s : list nat) : bool := match a, s with [], [] => true | x :: a', y :: s' => ((x =? y) || (x =? 1)) && fits a' s' | _, _ => false end.
(** the element of an array of sizes [a] that is seen at index [i] *)
Fixpoint clip (a i : list nat) : list nat := match a, i with x :: a', k :: i' => (if x =? 1 then 0 else k) :: clip a' i' | _, _ => [] end.
(** 258-261 *)
Definition assign (s : list nat) (a : arr) : option (list nat -> V) :=
  if length s <? length (shape a) then None
  else let k := length s - length (shape a) in
       if fits (shape a) (skipn k s) then Some (fun i => elt a (clip (shape a) (skipn k i))) else None.
(** 241-262 *)
Definition get_data (s : list nat) (n : nat) (l : list (dict (list arr))) (name : string) : option var :=
  do t <- every (map (fun d => do e <- get d name; every (map (fun i => do a <- nth_error e i; assign s a) (seq 0 n))) l);
  Some (Var (length l) s (fun i r ix => match nth_error t r with Some c => match nth_error c i with Some f => f ix | None => nan end | None => nan end)).
(** 235; the position moves on with every savepoint (236) *)
Definition put_at (k at_ : nat) (old : nat -> V) (a : arr) : option (nat -> V) :=
  match shape a with
  | [n] =>
      let m := Nat.min k (at_ + n) - Nat.min k at_ in
      if (n =? m) || (n =? 1) then Some (fun x => if (at_ <=? x) && (x <? at_ + m) then elt a [if n =? 1 then 0 else x - at_] else old x) else None
  | _ => None
  end.
(** 232-236 *)
Fixpoint put_calls (k : nat) (calls : list nat) (e : list arr) (st : nat * (nat -> nat -> V)) : option (nat * (nat -> nat -> V)) :=
  match calls with
  | [] => Some st
  | i :: calls' =>
      do a <- nth_error e i;
      do f <- put_at k (fst st) (snd st i) a;
      put_calls k calls' e (fst st + match shape a with n :: _ => n | [] => 0 end, fun j => if j =? i then f else snd st j)
  end.
(** 231 *)
Fixpoint put_ranks (k n : nat) (name : string) (l : list (dict (list arr))) (st : nat * (nat -> nat -> V)) : option (nat * (nat -> nat -> V)) :=
  match l with [] => Some st | d :: l' => do e <- get d name; do st' <- put_calls k (seq 0 n) e st; put_ranks k n name l' st' end.
(** 215-229 *)
Definition get_data_collapse_all_ranks (n : nat) (l : list (dict (list arr))) (name : string) : option var :=
  do sizes <- every (map (fun d => do e <- get d name; do a <- nth_error e 0; match shape a with [m] => Some m | _ => None end) l);
  let k := fold_right Nat.add 0 sizes in
  do st <- put_ranks k n name l (0, fun _ _ => nan);
  Some (Var 1 [k] (fun i _ ix => snd st i (hd 0 ix))).

(** 175-190 *)
Definition dynamics (savepoint : string) : bool := existsb (String.eqb savepoint) ["FVDynamics-In"; "FVDynamics-Out"; "Driver-In"; "Driver-Out"]%string.
Definition tracer (name : string) : bool := existsb (String.eqb name) ["qvapor"; "qliquid"; "qice"; "qrain"; "qsnow"; "qgraupel"; "qo3mr"; "qsgs_tke"]%string.
(** 193 [:, :, 3:-3, 3:-3, :] *)
Definition trim (v : var) : option var :=
  match v_shape v with
  | x :: y :: z :: s => Some (Var (v_ranks v) ((x - 6) :: (y - 6) :: z :: s) (fun i r ix => v_elt v i r (match ix with a :: b :: c => (a + 3) :: (b + 3) :: c | _ => ix end)))
  | _ => None
  end.
(** 156-173; the first rank of another shape decides *)
Fixpoint collapses (s : list nat) (name : string) (l : list (dict (list arr))) : option bool :=
  match l with
  | [] => Some false
  | d :: l' => do e <- get d name; do a <- nth_error e 0;
      if list_eq_dec Nat.eq_dec (shape a) s then collapses s name l' else if length s =? 1 then Some true else None
  end.
(** 153-205 *)
Definition variable (savepoint : string) (n : nat) (l : list (dict (list arr))) (name : string) : option var :=
  do d <- nth_error l 0; do e <- get d name; do a <- nth_error e 0;
  do c <- collapses (shape a) name l;
  if dynamics savepoint then do v <- get_data (shape a) n l name; if tracer name then trim v else Some v
  else if c then get_data_collapse_all_ranks n l name else get_data (shape a) n l name.

(** 96-212 for one savepoint; [files] gives the savepoints of this name in a file; None = no such file.  209: xarray refuses dimensions of different sizes *)
Record dataset := Dataset { ds_savepoints : nat; ds_ranks : nat; ds_vars : dict var }.
Definition convert (merge : bool) (data_name : option string) (nml : namelist) (savepoint : string) (files : string -> option (list (dict arr))) : option dataset :=
  do f0 <- files (serializer_name data_name 0);
  do first <- nth_error f0 0;
  let names := nodup string_dec (keys first) in
  do ranks <- every (map (fun r => files (serializer_name data_name r)) (seq 0 (total_ranks nml)));
  do l <- rank_list merge (tile_nx nml) (tile_ny nml) names None ranks;
  do last <- nth_error (rev ranks) 0;
  let n := if merge then 1 else length last in
  do vars <- every (map (fun name => do v <- variable savepoint n l name; Some (name, v)) (filter (fun name => negb (name =? "rank")%string) names));
  match vars with
  | [] => Some (Dataset n 0 [])
  | (_, v) :: _ => if forallb (fun x => v_ranks (snd x) =? v_ranks v) vars then Some (Dataset n (v_ranks v) vars) else None
  end.

(** savepoint.py 36-41, 79-84: the variables of one rank and call.  A dataset without variables has no dimensions *)
Definition load (d : dataset) (rank call : nat) : option (dict arr) :=
  match ds_vars d with
  | [] => None
  | vs => if (rank <? ds_ranks d) && (call <? ds_savepoints d) then Some (map (fun x => (fst x, Arr (v_shape (snd x)) (v_elt (snd x) call rank))) vs) else None
  end.
(** savepoint.py 36 *)
Definition load_with (d : dataset) (rank i_call : nat) (use_dynamic_i_call : bool) : option (dict arr) := load d rank (if use_dynamic_i_call then i_call else 0).

(** ** specification *)
(** an index of an array *)
Definition within (i s : list nat) : Prop := Forall2 lt i s.
Definition same (a b : arr) : Prop := shape a = shape b /\ forall i, within i (shape a) -> elt a i = elt b i.
(** what was written: arrays of more than one element with 0 for 1e40, a single element by itself, with one axis less *)
Definition written (a b : arr) : Prop :=
  (size (shape a) <> 1 /\ shape b = shape a /\ forall i, within i (shape a) -> elt b i = if huge (elt a i) then zero else elt a i)
  \/ (size (shape a) = 1 /\ exists s, shape a = 1 :: s /\ shape b = s /\ forall i, within i s -> elt b i = elt a (0 :: i)).
End Conv.
Arguments Arr {V}. Arguments shape {V}. Arguments elt {V}. Arguments Var {V}. Arguments Dataset {V}. Arguments ds_savepoints {V}. Arguments ds_ranks {V}. Arguments ds_vars {V}.
Arguments v_ranks {V}. Arguments v_shape {V}. Arguments v_elt {V}. Arguments arr : clear implicits. Arguments var : clear implicits. Arguments dataset : clear implicits.
