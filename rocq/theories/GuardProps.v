(** C142: the guard on the Locals of a LocalState. *)
From Coq Require Import List Bool String Arith Lia.
From Verif Require Import Base Dict GuardModel.
Import ListNotations.
Local Open Scope list_scope.
Local Open Scope nat_scope.

Lemma find_first_spec stack r : find_first stack = Some r <-> innermost stack r.
Proof.
  unfold innermost. induction stack as [|f s IH].
  - split; [discriminate|]. intros ([|? ?] & outer & E & _); discriminate.
  - destruct f as [|i|]; cbn [find_first].
    + rewrite IH. split; intros (inner & outer & E & N).
      * exists (NoSelf :: inner), outer. split; [now rewrite E|]. intros j [D|I]; [discriminate|exact (N j I)].
      * destruct inner as [|x inner]; [discriminate|]. injection E as <- E. exists inner, outer. split; [exact E|]. intros j I. apply (N j). now right.
    + split.
      * intros [= ->]. exists [], s. split; [reflexivity|auto].
      * intros ([|x inner] & outer & E & N); [now injection E as -> _|]. injection E as <- E. exfalso. apply (N i). now left.
    + rewrite IH. split; intros (inner & outer & E & N).
      * exists (OtherSelf :: inner), outer. split; [now rewrite E|]. intros j [D|I]; [discriminate|exact (N j I)].
      * destruct inner as [|x inner]; [discriminate|]. injection E as <- E. exists inner, outer. split; [exact E|]. intros j I. apply (N j). now right.
Qed.
Lemma find_all_spec stack r : In r (find_all stack) <-> In (Runtime r) stack.
Proof.
  induction stack as [|[|i|] s IH]; cbn; [tauto| | |].
  - rewrite IH. split; [auto|]. intros [D|I]; [discriminate|exact I].
  - rewrite IH. split; (intros [E|I]; [left; congruence|now right]).
  - rewrite IH. split; [auto|]. intros [D|I]; [discriminate|exact I].
Qed.
Lemma find_first_none stack : find_first stack = None <-> forall r, ~ In (Runtime r) stack.
Proof.
  induction stack as [|[|i|] s IH]; cbn [find_first]; [cbn; tauto| | |].
  - rewrite IH. split; intros H r; [intros [D|I]; [discriminate|exact (H r I)]|intros I; apply (H r); now right].
  - split; [discriminate|]. intros H. exfalso. apply (H i). now left.
  - rewrite IH. split; intros H r; [intros [D|I]; [discriminate|exact (H r I)]|intros I; apply (H r); now right].
Qed.

(** ** making one *)
Section Go.
Variable stack : list frame.
Fixpoint go (fs : list (string * shape)) : option (list (string * node)) :=
  match fs with [] => Some [] | (n, x) :: r => do y <- make_locals stack x; do ys <- go r; Some ((n, y) :: ys) end.
Lemma go_get fs l n : go fs = Some l -> (forall x, get fs n = Some x -> exists y, get l n = Some y /\ make_locals stack x = Some y) /\ (get fs n = None -> get l n = None).
Proof.
  revert l. induction fs as [|[k x] fs IH]; intros l; cbn [go].
  - intros [= <-]. split; [discriminate|reflexivity].
  - destruct (make_locals stack x) as [y|] eqn:M; [|discriminate]. cbn [bind]. destruct (go fs) as [ys|]; [|discriminate]. cbn [bind]. intros [= <-]. cbn. destruct (n =? k)%string; [|now apply IH].
    split; [|discriminate]. intros z [= <-]. eauto.
Qed.
End Go.
Lemma make_state stack g fs x : make_locals stack (SState g fs) = Some x ->
  exists l, go stack fs = Some l /\ (if g then exists r, innermost stack r /\ x = NState true (Some r) l else x = NState false None l).
Proof.
  change (make_locals stack (SState g fs)) with (do l <- go stack fs; if g then do r <- post_init stack; Some (NState true (Some r) l) else Some (NState false None l)).
  destruct (go stack fs) as [l|]; [|discriminate]. cbn [bind]. intros E. exists l. split; [reflexivity|]. destruct g; [|now injection E as <-].
  unfold post_init in E. cbn [find_first] in E. destruct (find_first stack) as [r|] eqn:F; [|discriminate]. injection E as <-. exists r. split; [now apply find_first_spec|reflexivity].
Qed.

Lemma makes stack r : In (Runtime r) stack -> forall c, c <> SQuantity -> ~ quantity_in c -> exists x, make_locals stack c = Some x.
Proof.
  intros I. assert (P : exists k, post_init stack = Some k).
  { unfold post_init. cbn [find_first]. destruct (find_first stack) as [k|] eqn:F; [eauto|]. exfalso. exact (proj1 (find_first_none stack) F r I). }
  destruct P as [k P]. fix F 1. intros [| | |g fs] N Q; try (eexists; reflexivity); [contradiction|].
  change (make_locals stack (SState g fs)) with (do l <- go stack fs; if g then do r <- post_init stack; Some (NState true (Some r) l) else Some (NState false None l)).
  assert (G : exists l, go stack fs = Some l); [|destruct G as [l ->]; cbn [bind]; rewrite P; destruct g; cbn; eauto].
  assert (A : forall n c, In (n, c) fs -> c <> SQuantity /\ ~ quantity_in c).
  { intros n c J. split; [intros ->; apply Q; exact (quantity_here g fs n J)|intros D; apply Q; exact (quantity_below g fs n c J D)]. }
  clear N Q. revert A. induction fs as [|[n c] fs IH]; intros A; [now exists []|]. destruct (A n c (or_introl eq_refl)) as (A1 & A2). destruct (F c A1 A2) as [x E].
  destruct IH as [l E']; [intros m d J; apply (A m d); now right|]. cbn [go]. rewrite E. cbn [bind]. rewrite E'. cbn. eauto.
Qed.
(** A LocalState without Quantities, however nested, can be made exactly while a runtime is at work; a class with a Quantity, at any depth, is refused. *)
Theorem C142_made : forall stack fs, ~ quantity_in (SState true fs) -> ((exists x, make_locals stack (SState true fs) = Some x) <-> exists r, In (Runtime r) stack).
Proof.
  intros stack fs Q. split.
  - intros [x M]. apply make_state in M. destruct M as (l & _ & r & (inner & outer & -> & _) & _). exists r. apply in_or_app. right. now left.
  - intros [r I]. apply (makes stack r I); [discriminate|exact Q].
Qed.
Theorem C142_no_quantity : forall stack c, quantity_in c -> make_locals stack c = None /\ make_as_state c = None.
Proof.
  intros stack c Q.
  assert (G : forall g fs n c, In (n, c) fs -> make_locals stack c = None -> make_as_state c = None -> make_locals stack (SState g fs) = None /\ make_as_state (SState g fs) = None).
  { clear. intros g fs n c I M1 M2. split.
    - change (make_locals stack (SState g fs)) with (do l <- go stack fs; if g then do r <- post_init stack; Some (NState true (Some r) l) else Some (NState false None l)).
      assert (E : go stack fs = None); [|now rewrite E]. induction fs as [|[k x] fs IH]; [destruct I|]. cbn [go]. destruct I as [[= -> ->]|I]; [now rewrite M1|]. destruct (make_locals stack x); [|reflexivity]. cbn. now rewrite (IH I).
    - cbn [make_as_state]. match goal with |- (do l <- ?F fs; _) = None => assert (E : F fs = None); [|now rewrite E] end.
      induction fs as [|[k x] fs IH]; [destruct I|]. destruct I as [[= -> ->]|I]; [now rewrite M2|]. destruct (make_as_state x); [|reflexivity]. cbn [bind]. now rewrite (IH I). }
  induction Q as [g fs n I|g fs n c I Q (M1 & M2)]; eapply G; eauto.
Qed.

(** ** reading from it *)
(** A Local that a LocalState holds, however deep in the state, can be read exactly while the runtime that was innermost when the state was made is at work, anywhere on the stack; otherwise reading it is an
    error.  Missing from the full statement: Locals in nested classes that are not LocalStates (C142_nested_refuted). *)
Theorem C142_read_partial : forall made c x path now, make_locals made c = Some x -> local_at c path true ->
  exists r, innermost made r /\ (read now x path = Got NLocal <-> In (Runtime r) now) /\ (read now x path = Refused <-> ~ In (Runtime r) now).
Proof.
  intros made c x path now M A. revert x M. remember true as h eqn:H. induction A as [g fs n G|g fs n g' fs' p h G A IH]; intros x M; apply make_state in M; destruct M as (l & E & X).
  - subst g. destruct X as (r & I & ->). exists r. split; [exact I|]. destruct (proj1 (go_get _ _ _ n E) _ G) as (y & Gy & My). injection My as <-.
    assert (D : read now (NState true (Some r) l) [n] = if existsb (Nat.eqb r) (find_all now) then Got NLocal else Refused).
    { unfold read, getattribute. cbn [find_all]. rewrite Gy. destruct (find_all now) as [|a b]; [reflexivity|]. destruct (existsb (Nat.eqb r) (a :: b)); reflexivity. }
    rewrite D. assert (B : existsb (Nat.eqb r) (find_all now) = true <-> In (Runtime r) now).
    { rewrite existsb_exists, <- find_all_spec. split; [intros (k & K & Q); apply Nat.eqb_eq in Q; now subst|]. intros K. exists r. split; [exact K|apply Nat.eqb_refl]. }
    destruct (existsb _ _).
    + split; [split; [intros _; now apply B|reflexivity]|]. split; [discriminate|]. intros N. exfalso. apply N. now apply B.
    + split; [split; [discriminate|]|split; [|reflexivity]]; [intros K; apply B in K; discriminate|]. intros _ K. apply B in K. discriminate.
  - destruct (proj1 (go_get _ _ _ n E) _ G) as (y & Gy & My). destruct (IH H y My) as (r & I & R). exists r. split; [exact I|].
    assert (D : read now x (n :: p) = read now y p); [|now rewrite D].
    apply make_state in My. destruct My as (l' & _ & Y). assert (NL : exists b q f, y = NState b q f) by (destruct g'; [destruct Y as (k & _ & ->)|subst y]; eauto).
    destruct NL as (b & q & f & ->). cbn [read]. assert (D : getattribute now x n = Got (NState b q f)); [|now rewrite D].
    destruct g; [destruct X as (k & _ & ->)|subst x]; cbn [getattribute]; rewrite Gy; reflexivity.
Qed.
(** In particular: once every call of that runtime has returned, no Local of a LocalState can be read, whatever else is running. *)
Theorem C142_returned : forall made c x path now r, make_locals made c = Some x -> local_at c path true -> innermost made r -> ~ In (Runtime r) now -> read now x path = Refused.
Proof.
  intros made c x path now r M A I N. destruct (C142_read_partial _ _ _ _ now M A) as (k & K & _ & R). apply find_first_spec in I, K. rewrite I in K. injection K as <-. now apply R.
Qed.
(** Made as a regular state, everything can be read from everywhere, as a Quantity. *)
Theorem C142_as_state : forall c x path h now, make_as_state c = Some x -> local_at c path h -> read now x path = Got NQuantity.
Proof.
  intros c x path h now M A. revert x M. induction A as [g fs n G|g fs n g' fs' p h G A IH]; intros x M; cbn [make_as_state] in M.
  - match type of M with (do l <- ?F fs; _) = _ => destruct (F fs) as [l|] eqn:E; [|discriminate]; assert (L : get l n = Some NQuantity) end.
    { clear M. revert l E. induction fs as [|[k y] fs IHf]; [discriminate|]. intros l E. cbn in G. destruct (make_as_state y) as [z|] eqn:Z; [|discriminate]. cbn [bind] in E.
      match type of E with (do ys <- ?R; _) = _ => destruct R as [ys|] eqn:Q; [|discriminate] end. cbn [bind] in E. injection E as <-. cbn. destruct (n =? k)%string; [|now apply IHf].
      injection G as ->. now injection Z as <-. }
    cbn [bind] in M. injection M as <-. cbn. now rewrite L.
  - match type of M with (do l <- ?F fs; _) = _ => destruct (F fs) as [l|] eqn:E; [|discriminate]; assert (L : exists y, get l n = Some y /\ make_as_state (SState g' fs') = Some y) end.
    { clear M IH. revert l E. induction fs as [|[k y] fs IHf]; [discriminate|]. intros l E. cbn in G. destruct (make_as_state y) as [z|] eqn:Z; [|discriminate]. cbn [bind] in E.
      match type of E with (do ys <- ?R; _) = _ => destruct R as [ys|] eqn:Q; [|discriminate] end. cbn [bind] in E. injection E as <-. cbn [get]. destruct (n =? k)%string; [|now apply IHf].
      injection G as ->. eauto. }
    destruct L as (y & L & My). specialize (IH y My). cbn [bind] in M. injection M as <-. cbn [read getattribute]. rewrite L.
    assert (NL : exists b q f, y = NState b q f). { cbn [make_as_state] in My. match type of My with (do l <- ?R; _) = _ => destruct R; [|discriminate] end. cbn [bind] in My. injection My as <-. eauto. }
    destruct NL as (b & q & f & ->). exact IH.
Qed.
Print Assumptions C142_made.
Print Assumptions C142_no_quantity.
Print Assumptions C142_read_partial.
Print Assumptions C142_returned.
Print Assumptions C142_as_state.

(** The full statement is false: the Locals of a nested class that is a State, not a LocalState, can be read outside of every runtime, although the class is accepted and the Locals next to it are refused. *)
Definition mixed : shape := SState true [("work", SLocal); ("inner", SState false [("flux", SLocal)])]%string.
Theorem C142_nested_refuted : exists made c x path other, make_locals made c = Some x /\ local_at c path false /\ read [] x path = Got NLocal /\ local_at c other true /\ read [] x other = Refused.
Proof.
  exists [Runtime 0], mixed, (NState true (Some 0) [("work", NLocal); ("inner", NState false None [("flux", NLocal)])]%string), ["inner"; "flux"]%string, ["work"%string].
  split; [reflexivity|]. split; [eapply local_below; [reflexivity|now constructor]|]. split; [reflexivity|]. split; [now constructor|reflexivity].
Qed.
(** Nor does a LocalState hold only Locals: a field declared as an optional Quantity is accepted, and is a Quantity that can be read from everywhere. *)
Theorem C142_optional_refuted : exists made c n x, make_locals made (SState true c) = Some x /\ read [] x [n] = Got NQuantity.
Proof. exists [Runtime 0], [("work", SLocal); ("diag", SOptional)]%string, "diag"%string. eexists. split; reflexivity. Qed.
Print Assumptions C142_nested_refuted.
Print Assumptions C142_optional_refuted.

(** a state made by a runtime that another one has called; read by a third one that the second calls, and after the second has returned *)
Example C142_case : let c := SState true [("work", SLocal); ("inner", SState true [("flux", SLocal)])]%string in
  exists x, make_locals [NoSelf; Runtime 2; Runtime 1] c = Some x /\ local_at c ["inner"; "flux"]%string true /\
    read [Runtime 3; OtherSelf; Runtime 2; Runtime 1] x ["inner"; "flux"]%string = Got NLocal /\ read [Runtime 1] x ["inner"; "flux"]%string = Refused.
Proof. cbv zeta. eexists. split; [reflexivity|]. split; [eapply local_below; [reflexivity|now constructor]|]. split; reflexivity. Qed.
(** the hypothesis of C142_made *)
Example C142_case2 : ~ quantity_in (SState true [("work", SLocal); ("inner", SState true [("flux", SLocal)])]%string).
Proof.
  intros Q. inversion Q as [? ? n I|? ? n c I D]; subst; cbn in I; repeat destruct I as [I|I]; try contradiction; try discriminate; injection I as <- <-; [inversion D|].
  inversion D as [? ? m J|? ? m c J E]; subst; cbn in J; repeat destruct J as [J|J]; try contradiction; try discriminate. injection J as <- <-. inversion E.
Qed.
