(** Model of ndsl/quantity/field_bundle.py:17-104 (FieldBundle): creation, map, access by attribute.

    A quantity is a number; [len q] is its extent along the fourth axis.  A view is the pair (quantity, index along the fourth
    axis) of the memory it shows.  The mapping handed to a bundle is kept by reference (57), so mappings are numbered objects.
    Simplified: an attribute that exists on the class (name, quantity, shape, map, index, groupby, ...) never reaches
    __getattr__; quantities are 4-dimensional (52-53). *)
From Verif Require Import Base Dict.
Local Open Scope nat_scope.

Section Bundle.
  Variable len : nat -> Z.

  Record world := mkWorld {
    maps : list (dict Z);            (* the mapping objects *)
    bundles : list (nat * nat);             (* bundle -> its _quantity and its _indexer *)
    per_name : dict (nat * Z) }.       (* FieldBundle._per_name_view, one for the class (28) *)

  Inductive op :=
  | NewMap (d : dict Z)              (* the caller makes a dictionary (or __init__ makes {}, 49-50) *)
  | NewBundle (q m : nat)                   (* FieldBundle("...", q, m); 30-61 *)
  | Map (b : nat) (i : Z) (n : string)      (* bundle.map(i, n); 63-65 *)
  | Access (b : nat) (n : string).          (* bundle.n; 79-100 *)

  Inductive result := Done | NoSuchField | View (q : nat) (i : Z) | IndexError.

  Definition quantity_of (w : world) (b : nat) : nat := fst (nth b (bundles w) (0, 0)%nat).
  Definition indexer_of (w : world) (b : nat) : nat := snd (nth b (bundles w) (0, 0)%nat).

  Fixpoint set_map (l : list (dict Z)) (n : nat) (k : string) (v : Z) : list (dict Z) :=
    match l, n with
    | [], _ => []
    | d :: l', O => put d k v :: l'
    | d :: l', S n' => d :: set_map l' n' k v
    end.

  Definition in_range (q : nat) (i : Z) : bool := (- len q <=? i)%Z && (i <? len q)%Z.

  Definition step (o : op) (w : world) : world * result :=
    match o with
    | NewMap d => (mkWorld (maps w ++ [d]) (bundles w) (per_name w), Done)
    | NewBundle q m => (mkWorld (maps w) (bundles w ++ [(q, m)]) (per_name w), Done)
    | Map b i n => (mkWorld (set_map (maps w) (indexer_of w b) n i) (bundles w) (per_name w), Done)
    | Access b n =>
        match get (nth (indexer_of w b) (maps w) []) n with
        | None => (w, NoSuchField)                                                          (* 81-84 *)
        | Some i =>
            match get (per_name w) n with
            | Some v => (w, View (fst v) (snd v))                                           (* 100 *)
            | None =>                                                                       (* 88-99 *)
                if in_range (quantity_of w b) i then
                  (mkWorld (maps w) (bundles w) (put (per_name w) n (quantity_of w b, i)), View (quantity_of w b) i)
                else (w, IndexError)
            end
        end
    end.

  (** run a sequence; the history has the most recent operation first *)
  Fixpoint run (os : list op) (w : world) : world * list (op * result) :=
    match os with
    | [] => (w, [])
    | o :: os' =>
        let '(w1, h) := run os' w in
        let '(w2, r) := step o w1 in (w2, (o, r) :: h)
    end.
  Definition first_world : world := mkWorld [] [] [].

  (** ** Specification, as functions of the operations performed (most recent first) *)
  (** the k-th bundle created *)
  Fixpoint created (os : list op) : list (nat * nat) :=
    match os with [] => [] | NewBundle q m :: os' => created os' ++ [(q, m)] | _ :: os' => created os' end.
  Definition n_maps (os : list op) : nat := length (filter (fun o => match o with NewMap _ => true | _ => false end) os).
  (** the index a mapping object gives for a name now: the latest change of it, else its initial contents *)
  Fixpoint mapped (os : list op) (m : nat) (n : string) : option Z :=
    match os with
    | [] => None
    | NewMap d :: os' => if Nat.eqb m (n_maps os') then get d n else mapped os' m n
    | Map b i n' :: os' =>
        if Nat.eqb m (snd (nth b (created os') (0, 0)%nat)) && (n =? n')%string && Nat.ltb m (n_maps os') then Some i
        else mapped os' m n
    | _ :: os' => mapped os' m n
    end.
  (** what accessing field [n] of bundle [b] should give *)
  Definition own (os : list op) (b : nat) (n : string) : result :=
    let '(q, m) := nth b (created os) (0, 0)%nat in
    match mapped os m n with
    | None => NoSuchField
    | Some i => if ((- len q <=? i) && (i <? len q))%Z then View q i else IndexError     (* an index of the fourth axis *)
    end.
End Bundle.
