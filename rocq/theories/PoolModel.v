(** Model of ndsl/buffer.py Buffer pool (BUFFER_CACHE) and of the objects that take buffers from it:
    HaloDataTransformer (halo/data_transformer.py), array_buffer (buffer.py) and HaloUpdateRequest (halo/updater.py).

    A key stands for (allocator, shape, dtype); equality of keys is Python's.  A buffer is a number; [key_of] is its _key,
    and its array was allocated with exactly that allocator, shape and dtype (buffer.py:60-64).
    Simplified: BUFFER_CACHE's per-key lists are kept in one list, latest pushed first, and popping takes the first entry of
    the key, which is the last element of the key's list.  Array contents and device synchronisation are left out. *)
From Verif Require Import Base.

Section Pool.
  Context {K : Type} (K_dec : forall a b : K, {a = b} + {a <> b}).

  Record pool := mkPool { cache : list (K * nat); key_of : nat -> K; fresh : nat }.

  (** first entry of the key, and the rest *)
  Fixpoint take (k : K) (c : list (K * nat)) : option (nat * list (K * nat)) :=
    match c with
    | [] => None
    | (k', b) :: c' => if K_dec k k' then Some (b, c') else match take k c' with Some (x, r) => Some (x, (k', b) :: r) | None => None end
    end.

  (** buffer.py:44-64 pop_from_cache *)
  Definition pop (k : K) (p : pool) : nat * pool :=
    match take k (cache p) with
    | Some (b, c) => (b, mkPool c (key_of p) (fresh p))
    | None => (fresh p, mkPool (cache p) (fun b => if Nat.eqb b (fresh p) then k else key_of p b) (S (fresh p)))
    end.

  (** buffer.py:67-73 push_to_cache *)
  Definition push (b : nat) (p : pool) : pool := mkPool ((key_of p b, b) :: cache p) (key_of p) (fresh p).
  Definition push_opt (o : option nat) (p : pool) : pool := match o with Some b => push b p | None => p end.

  (** an object and the buffers it refers to *)
  Inductive client :=
  | Transformer (key : K) (pack unpack : option nat)   (* data_transformer.py:217-219 _pack_buffer, _unpack_buffer *)
  | Context (key : K) (b : nat) (inside : bool)        (* a `with array_buffer(...)` block being executed *)
  | Request (bs : list (K * nat)) (waits : nat).       (* updater.py:314-349; [waits] counts the calls (not in the code) *)

  Inductive op :=
  | NewTransformer (k : K)                             (* data_transformer.py:311-334 _compile *)
  | Finalize (i : nat)                                 (* data_transformer.py:221-234 *)
  | Enter (k : K)                                      (* buffer.py:125-126 *)
  | Exit (i : nat) (normal : bool)                     (* buffer.py:127: no push when the block raised *)
  | NewRequest (ks : list K)                           (* updater.py:525-544 _Isend / _Irecv *)
  | WaitRequest (i : nat).                             (* updater.py:335-349 *)

  Record st := mkSt { pl : pool; clients : list client }.

  Fixpoint pop_all (ks : list K) (p : pool) : list (K * nat) * pool :=
    match ks with
    | [] => ([], p)
    | k :: ks' => let '(b, p1) := pop k p in let '(bs, p2) := pop_all ks' p1 in ((k, b) :: bs, p2)
    end.
  Definition push_all (bs : list (K * nat)) (p : pool) : pool := fold_left (fun p kb => push (snd kb) p) bs p.

  Fixpoint replace (i : nat) (c : client) (l : list client) : list client :=
    match i, l with
    | _, [] => []
    | O, _ :: l' => c :: l'
    | S i', x :: l' => x :: replace i' c l'
    end.

  (** calls on objects that do not exist, or not of that class, do not occur and change nothing *)
  Definition step (o : op) (s : st) : st :=
    match o with
    | NewTransformer k =>
        let '(a, p1) := pop k (pl s) in let '(b, p2) := pop k p1 in
        mkSt p2 (clients s ++ [Transformer k (Some a) (Some b)])
    | Finalize i =>
        match nth_error (clients s) i with
        | Some (Transformer k a b) => mkSt (push_opt b (push_opt a (pl s))) (replace i (Transformer k None None) (clients s))
        | _ => s
        end
    | Enter k => let '(a, p1) := pop k (pl s) in mkSt p1 (clients s ++ [Context k a true])
    | Exit i normal =>
        match nth_error (clients s) i with
        | Some (Context k a true) => mkSt (if normal then push a (pl s) else pl s) (replace i (Context k a false) (clients s))
        | _ => s
        end
    | NewRequest ks => let '(bs, p) := pop_all ks (pl s) in mkSt p (clients s ++ [Request bs 0])
    | WaitRequest i =>
        match nth_error (clients s) i with
        | Some (Request bs w) => mkSt (push_all bs (pl s)) (replace i (Request bs (S w)) (clients s))
        | _ => s
        end
    end.

  Definition run (ops : list op) (s : st) : st := fold_left (fun s o => step o s) ops s.
  Definition start (k0 : nat -> K) : st := mkSt (mkPool [] k0 0) [].

  (** ** specification: buffers an object may still use, with the key it asked for *)
  Definition opt_list {T} (o : option T) : list T := match o with Some x => [x] | None => [] end.
  Definition holds (c : client) : list (K * nat) :=
    match c with
    | Transformer k a b => map (pair k) (opt_list a ++ opt_list b)
    | Context k b true => [(k, b)]
    | Context _ _ false => []
    | Request bs 0 => bs
    | Request _ (S _) => []
    end.
  Definition in_use (s : st) : list (K * nat) := flat_map holds (clients s).
  (** no request is waited for a second time *)
  Definition waited_once (s : st) : Prop := forall i bs w, nth_error (clients s) i = Some (Request bs w) -> (w <= 1)%nat.
End Pool.
