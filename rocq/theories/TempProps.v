(** C120: copies of temporaries hold the quantities of an object, and two copies are the same if they hold the same.

    Full statement: copy_temporaries(obj, max_depth) holds exactly the quantities that are attributes of obj, or of objects of pyFV3 within it at most max_depth steps down;
    assert_same_temporaries(a, b) passes exactly if both hold the same names with close values, and otherwise names exactly the ones that differ. *)
From Coq Require Import List Bool String Ascii Lia.
From Verif Require Import TrapModel TempModel TempProofs.
Import ListNotations.
Local Open Scope list_scope.

(** what is copied: the path is the list of keys *)
Theorem C120_copied A (dir : nat -> list (string * attribute A)) obj max_depth p a :
  entry (Sub (copy_temporaries dir obj max_depth)) p a <-> reaches dir obj p a /\ List.length p <= S max_depth.
Proof. apply copy_entry. Qed.
Print Assumptions C120_copied.

(** objects of the package pyFV3, at the end of a path of attributes *)
Inductive pyFV3_reaches {A} (dir : nat -> list (string * attribute A)) : nat -> list string -> A -> Prop :=
| own o n a : In (n, Quantity a) (dir o) -> prefix "__" n = false -> pyFV3_reaches dir o [n] a
| inner o n m o' p a : In (n, Object m o') (dir o) -> prefix "__" n = false -> m = "pyFV3"%string \/ (exists rest, m = ("pyFV3." ++ rest)%string) -> pyFV3_reaches dir o' p a -> pyFV3_reaches dir o (n :: p) a.
Lemma first_part_pyFV3 m : first_part m = "pyFV3"%string <-> m = "pyFV3"%string \/ exists rest, m = ("pyFV3." ++ rest)%string.
Proof.
  split.
  - assert (G : forall w s, first_part s = w -> s = w \/ exists rest, s = (w ++ "." ++ rest)%string).
    { induction w as [|c w IH]; intros s E; (destruct s as [|d s]; [cbn in E; (left; congruence) || discriminate|]); cbn in E; destruct (Ascii.eqb d ".") eqn:D.
      - right. exists s. apply Ascii.eqb_eq in D. now rewrite D.
      - discriminate.
      - discriminate.
      - injection E as <- E. destruct (IH s E) as [->|[rest ->]]; [left; reflexivity|right; exists rest; reflexivity]. }
    apply G.
  - intros [->|[rest ->]]; reflexivity.
Qed.
(** Partial: if no other package has a name that is a part of the word "pyFV3" *)
Theorem C120_pyFV3_partial A (dir : nat -> list (string * attribute A)) obj max_depth p a :
  (forall o n m o' u v, In (n, Object m o') (dir o) -> "pyFV3"%string = (u ++ first_part m ++ v)%string -> first_part m = "pyFV3"%string) ->
  (entry (Sub (copy_temporaries dir obj max_depth)) p a <-> pyFV3_reaches dir obj p a /\ List.length p <= S max_depth).
Proof.
  intros H. rewrite copy_entry. assert (E : reaches dir obj p a <-> pyFV3_reaches dir obj p a); [|tauto]. split.
  - induction 1 as [o n a I F|o n m o' p a u v I F M R IH]; [now constructor|]. apply (inner dir o n m o' p a); [exact I|exact F|apply first_part_pyFV3; eapply H; eassumption|exact IH].
  - induction 1 as [o n a I F|o n m o' p a I F M R IH]; [now constructor|]. apply (reaches_below dir o n m o' p a EmptyString EmptyString); [exact I|exact F|apply first_part_pyFV3 in M; now rewrite M|exact IH].
Qed.
Print Assumptions C120_pyFV3_partial.
(** an object of another package is copied *)
Theorem C120_package_refuted : exists (dir : nat -> list (string * attribute nat)) p a,
  entry (Sub (copy_temporaries dir 0 1)) p a /\ ~ pyFV3_reaches dir 0 p a.
Proof.
  exists (fun o => match o with O => [("x"%string, Object "py.path" 1)] | _ => [("q"%string, Quantity 7)] end), ["x"; "q"]%string, 7. split.
  - apply copy_entry. split; [|cbn; lia]. apply (reaches_below _ 0 "x" "py.path" 1 ["q"%string] 7 "" "FV3"); [left; reflexivity|reflexivity|reflexivity|]. apply reaches_here; [left; reflexivity|reflexivity].
  - intros H. inversion H; subst. destruct H2 as [E|[]]. injection E as <- <-. destruct H5 as [E|[rest E]]; discriminate.
Qed.
Print Assumptions C120_package_refuted.

(** dictionaries as they are copied *)
Definition proper_dict {A} (d : list (string * temporary A)) : Prop := NoDup (map fst d) /\ forall n x, In (n, x) d -> proper x.
Theorem C120_proper A (dir : nat -> list (string * attribute A)) obj max_depth : (forall o, NoDup (map fst (dir o))) -> proper_dict (copy_temporaries dir obj max_depth).
Proof. intros N. split; [now apply copy_nodup|intros n x; now apply copy_proper]. Qed.
Print Assumptions C120_proper.

Lemma entry_unique {A} (x : temporary A) : proper x -> forall p b b', entry x p b -> entry x p b' -> b = b'.
Proof.
  induction x as [a|d IH] using temporary_rec'; intros Px p b b' B B'; [apply entry_arr in B, B'; destruct B as [_ ->], B' as [_ ->]; reflexivity|].
  apply entry_sub in B, B'. destruct B as (n & q & x & -> & I & B), B' as (n' & q' & x' & [= <- <-] & I' & B'). inversion Px; subst. assert (L := in_lookup _ _ _ H1 I). rewrite (in_lookup _ _ _ H1 I') in L. injection L as ->.
  rewrite Forall_forall in IH. apply (IH (n, x) I (H2 n x I) q b b' B B').
Qed.
(** Partial: what the second holds besides is not looked at *)
Theorem C120_same_partial A (allclose : A -> A -> option bool) d e : proper_dict d -> proper_dict e ->
  (assert_same_temporaries allclose d e = Some true <-> forall p a, entry (Sub d) p a -> exists b, entry (Sub e) p b /\ allclose a b = Some true).
Proof.
  intros [N P] [Ne Pe]. unfold assert_same_temporaries, differing. rewrite compare_sub.
  assert (G := all_good allclose e d ltac:(apply Forall_forall; intros x _; apply compare_good) N P Ne Pe). destruct (all allclose e d) as [l|]; cbn [option_map].
  - destruct G as [G1 G2]. split.
    + intros H p a E. destruct (G1 p a E) as (b & [|] & B & C); [eauto|]. assert (I : In p l) by (apply G2; eauto). destruct l; [destruct I|discriminate].
    + intros H. destruct l as [|p l]; [reflexivity|]. exfalso. destruct (proj1 (G2 p) (or_introl eq_refl)) as (a & b & E & B & C). destruct (H p a E) as (b' & B' & C').
      assert (D : b = b').
      { apply entry_sub in B, B'. destruct B as (n & q & x & -> & I & B), B' as (n' & q' & x' & [= <- <-] & I' & B'). assert (L := in_lookup _ _ _ Ne I). rewrite (in_lookup _ _ _ Ne I') in L. injection L as ->. apply (entry_unique x (Pe n x I) q b b' B B'). }
      congruence.
  - split; [discriminate|]. intros H. exfalso. destruct G as (p & a & E & [F|(b & B & C)]); destruct (H p a E) as (b' & B' & C'); [exact (F b' B')|].
    assert (D : b = b').
    { apply entry_sub in B, B'. destruct B as (n & q & x & -> & I & B), B' as (n' & q' & x' & [= <- <-] & I' & B'). assert (L := in_lookup _ _ _ Ne I). rewrite (in_lookup _ _ _ Ne I') in L. injection L as ->.
      apply (entry_unique x (Pe n x I) q b b' B B'). }
    congruence.
Qed.
Print Assumptions C120_same_partial.

(** the names in the message *)
Theorem C120_named A (allclose : A -> A -> option bool) d e l : proper_dict d -> proper_dict e -> differing allclose d e = Some l ->
  forall s, In s l <-> exists p a b, entry (Sub d) p a /\ entry (Sub e) p b /\ allclose a b = Some false /\ s = String.concat "." p.
Proof.
  intros [N P] [Ne Pe]. unfold differing. rewrite compare_sub.
  assert (G := all_good allclose e d ltac:(apply Forall_forall; intros x _; apply compare_good) N P Ne Pe). destruct (all allclose e d) as [r|]; [|discriminate]. intros [= <-] s. destruct G as [_ G]. rewrite in_map_iff.
  assert (C : forall p, name p = String.concat "." p). { induction p as [|n p IH]; [reflexivity|]. destruct p; [reflexivity|]. change ((n ++ "." ++ name (s0 :: p))%string = (n ++ "." ++ String.concat "." (s0 :: p))%string). now rewrite IH. }
  split.
  - intros (p & <- & I). apply G in I. destruct I as (a & b & E & B & F). exists p, a, b. auto.
  - intros (p & a & b & E & B & F & ->). exists p. split; [apply C|]. apply G. eauto.
Qed.
Print Assumptions C120_named.

(** nothing changed: the two copies are the same *)
Theorem C120_unchanged A (allclose : A -> A -> option bool) dir obj max_depth : (forall o, NoDup (map fst (dir o))) -> (forall a, allclose a a = Some true) ->
  assert_same_temporaries allclose (copy_temporaries dir obj max_depth) (copy_temporaries dir obj max_depth) = Some true.
Proof. intros N C. apply C120_same_partial; [now apply C120_proper|now apply C120_proper|]. intros p a E. exists a. auto. Qed.
Print Assumptions C120_unchanged.

(** the second may hold more *)
Theorem C120_extra_refuted : exists (allclose : nat -> nat -> option bool) d e p a, proper_dict d /\ proper_dict e /\ entry (Sub e) p a /\ (forall b, ~ entry (Sub d) p b) /\
  assert_same_temporaries allclose d e = Some true /\ assert_same_temporaries allclose e d = None.
Proof.
  exists (fun a b => Some (Nat.eqb a b)), [("q"%string, Arr 1)], [("q"%string, Arr 1); ("u"%string, Arr 2)], ["u"%string], 2. repeat split.
  - cbn. repeat constructor; cbn; intuition.
  - intros n x [[= <- <-]|[]]. constructor.
  - cbn. repeat constructor; cbn; intuition discriminate.
  - intros n x [[= <- <-]|[[= <- <-]|[]]]; constructor.
  - econstructor; [right; left; reflexivity|constructor].
  - intros b B. apply entry_sub in B. destruct B as (n & q & x & [= <- <-] & [E|[]] & _). discriminate.
Qed.
Print Assumptions C120_extra_refuted.

(** an object with a quantity, an object of pyFV3 with one and with itself *)
Definition objects (o : nat) : list (string * attribute nat) :=
  match o with
  | 0 => [("__dict__", Object "builtins" 9); ("_q", Quantity 5); ("fx", Object "pyFV3.stencils.xppm" 1); ("grid", Object "ndsl.grid" 2)]
  | 1 => [("al", Quantity 6); ("self", Object "pyFV3.stencils.xppm" 1)]
  | _ => [("area", Quantity 8)]
  end%string.
Example C120_case : copy_temporaries objects 0 2 = [("_q", Arr 5); ("fx", Sub [("al", Arr 6); ("self", Sub [("al", Arr 6)])])]%string.
Proof. reflexivity. Qed.
Example C120_differ_case : differing (fun a b => Some (Nat.eqb a b)) (copy_temporaries objects 0 2) [("_q", Arr 5); ("fx", Sub [("al", Arr 7); ("self", Sub [("al", Arr 6)])])]%string = Some ["fx.al"%string].
Proof. reflexivity. Qed.
