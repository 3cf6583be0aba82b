(** C124: the wrapped halo updater *)
From Coq Require Import ZArith List Bool String.
From Verif Require Import Base Dict GridModel GridProofs WrapModel.
Import ListNotations.
Local Open Scope list_scope.

Section Props.
Context {V : Type}.
(** ** specification *)
(** what the name x stands for after the calls p: the last value given to it, else that of the first state *)
Fixpoint given (p : list (call V)) (x : string) : option V :=
  match p with
  | [] => None
  | c :: p => match given p x with Some v => Some v | None => match c with Bind y v => if String.eqb y x then Some v else None | _ => None end end
  end.
Definition first_value (s : state V) (x : string) : option V := match s with Dataclass l | Dictionary l => get l x | Else => None end.
Definition stands_for (s : state V) (p : list (call V)) (x : string) (v : V) : Prop := match given p x with Some u => v = u | None => first_value s x = Some v end.
(** what one call sends, the calls p having been made before *)
Definition starts (w : wrapped) (s : state V) (p : list (call V)) (e : event V) : Prop :=
  exists xs, Forall2 (stands_for s p) (x_names w) xs
    /\ match y_names w with None => e = Start xs None | Some ys => exists vs, Forall2 (stands_for s p) ys vs /\ e = Start xs (Some vs) end.
Definition sends (w : wrapped) (s : state V) (p : list (call V)) (c : call V) (es : list (event V)) : Prop :=
  match c with
  | Bind _ _ => es = []
  | CStart => exists e, starts w s p e /\ es = [e]
  | CWait => es = [Wait]
  | CUpdate => exists e, starts w s p e /\ es = [e; Wait]
  | CInterface => exists x y vx vy, x_names w = [x] /\ y_names w = Some [y] /\ stands_for s p x vx /\ stands_for s p y vy /\ es = [Synchronize vx vy]
  end.
Definition known (s : state V) (p : list (call V)) (x : string) : Prop := exists v, stands_for s p x v.
Definition names_known (w : wrapped) (s : state V) (p : list (call V)) : Prop :=
  Forall (known s p) (x_names w) /\ match y_names w with None => True | Some ys => Forall (known s p) ys end.
(** the calls of a program with those before each *)
Fixpoint moments (before p : list (call V)) : list (list (call V) * call V) := match p with [] => [] | c :: p => (before, c) :: moments (before ++ [c]) p end.

(** ** proofs *)
Fixpoint after (s : state V) (p : list (call V)) : state V := match p with [] => s | Bind x v :: p => after (bind_name s x v) p | _ :: p => after s p end.
Lemma after_app s p q : after s (p ++ q) = after (after s p) q.
Proof. revert s. induction p as [|c p IH]; intros s; [reflexivity|]. destruct c; cbn [app after]; apply IH. Qed.
Lemma first_after s p x : first_value (after s p) x = match s with Else => None | _ => match given p x with Some v => Some v | None => first_value s x end end.
Proof.
  revert s. induction p as [|c p IH]; intros s; [now destruct s|]. destruct c as [y v| | | |]; cbn [after given]; rewrite IH; [|destruct s, (given p x); reflexivity..].
  destruct s as [l|l|]; cbn [bind_name first_value]; destruct (given p x); try reflexivity; rewrite get_put; rewrite (String.eqb_sym x y); destruct (String.eqb y x); reflexivity.
Qed.
Definition of_state (s : state V) : Prop := s <> Else.
Lemma after_kind s p : (exists l, after s p = Dataclass l) <-> exists l, s = Dataclass l.
Proof. revert s. induction p as [|c p IH]; intros s; [reflexivity|]. destruct c; cbn [after]; try apply IH. rewrite IH. destruct s; cbn [bind_name]; split; intros [k E]; try discriminate; eauto. Qed.
Lemma stands s p x v : s <> Else -> first_value (after s p) x = Some v <-> stands_for s p x v.
Proof. intros N. rewrite first_after. unfold stands_for. destruct s; [| |congruence]; destruct (given p x); split; congruence. Qed.
Lemma all_stands s p names vs : s <> Else -> all_some (map (first_value (after s p)) names) = Some vs <-> Forall2 (stands_for s p) names vs.
Proof.
  intros N. rewrite all_some_spec. revert vs. induction names as [|x names IH]; intros [|v vs]; cbn [map]; split; intros H; try discriminate; try inversion H; subst; try constructor; try reflexivity.
  - apply stands; [exact N|]. now symmetry. - now apply IH. - f_equal; [symmetry; now apply stands|now apply IH].
Qed.
Lemma start_is w s : s <> Else -> start w s = do xs <- all_some (map (first_value s) (x_names w)); match y_names w with None => Some [Start xs None] | Some ys => do vy <- all_some (map (first_value s) ys); Some [Start xs (Some vy)] end.
Proof. intros N. unfold start. destruct s as [l|l|]; [| |congruence]; destruct (y_names w); reflexivity. Qed.
Lemma after_else s p : s <> Else -> after s p <> Else.
Proof. revert s. induction p as [|c p IH]; intros s N; [exact N|]. destruct c; cbn [after]; apply IH; try exact N. destruct s; cbn; congruence. Qed.
Lemma start_sends w s p es : s <> Else -> start w (after s p) = Some es <-> exists e, starts w s p e /\ es = [e].
Proof.
  intros N. rewrite start_is by now apply after_else. split.
  - destruct (all_some (map _ (x_names w))) as [xs|] eqn:E; [|discriminate]. cbn [bind]. apply all_stands in E; [|exact N]. destruct (y_names w) as [ys|] eqn:Y.
    + destruct (all_some _) as [vy|] eqn:E2; [|discriminate]. cbn [bind]. apply all_stands in E2; [|exact N]. intros [= <-]. eexists. split; [|reflexivity]. exists xs. split; [exact E|]. rewrite Y. eauto.
    + intros [= <-]. eexists. split; [|reflexivity]. exists xs. split; [exact E|]. now rewrite Y.
  - intros (e & (xs & X & H) & ->). apply all_stands in X; [|exact N]. rewrite X. cbn [bind]. destruct (y_names w) as [ys|]; [|now rewrite H]. destruct H as (vs & Y & ->). apply all_stands in Y; [|exact N]. now rewrite Y.
Qed.
Definition has_interface (p : list (call V)) : Prop := In CInterface p.

Lemma run_sends w s p : s <> Else -> (In CInterface p -> exists l, s = Dataclass l) -> forall before es, run w (after s before) p = Some es ->
  exists parts, es = concat parts /\ Forall2 (fun m part => sends w s (fst m) (snd m) part) (moments before p) parts.
Proof.
  intros N. induction p as [|c p IH]; intros D before es; cbn [run moments]; [intros [= <-]; exists []; split; [reflexivity|constructor]|].
  assert (D' : In CInterface p -> exists l, s = Dataclass l) by (intros I; apply D; now right).
  assert (Same : (forall x v, c <> Bind x v) -> after s before = after s (before ++ [c])) by (intros H; rewrite after_app; destruct c; cbn; try reflexivity; now destruct (H x v)).
  assert (Step : forall e, (forall x v, c <> Bind x v) -> sends w s before c e -> (do r <- run w (after s before) p; Some (e ++ r)) = Some es ->
    exists parts, es = concat parts /\ Forall2 (fun m part => sends w s (fst m) (snd m) part) ((before, c) :: moments (before ++ [c]) p) parts).
  { intros e H S R. rewrite (Same H) in R. destruct (run _ _ p) as [r|] eqn:E; [|discriminate]. cbn [bind] in R. injection R as <-. destruct (IH D' _ _ E) as (parts & -> & F). exists (e :: parts). split; [reflexivity|]. now constructor. }
  destruct c as [x v| | | |].
  - intros R. assert (E : bind_name (after s before) x v = after s (before ++ [Bind x v])) by (rewrite after_app; reflexivity). rewrite E in R.
    destruct (IH D' _ _ R) as (parts & -> & F). exists ([] :: parts). split; [reflexivity|]. constructor; [reflexivity|exact F].
  - destruct (start w (after s before)) as [e|] eqn:E; [|discriminate]. cbn [bind]. apply Step; [discriminate|]. now apply start_sends in E.
  - apply (Step [Wait]); [discriminate|reflexivity].
  - unfold update. destruct (start w (after s before)) as [e|] eqn:E; [|discriminate]. cbn [bind]. apply Step; [discriminate|]. apply start_sends in E; [|exact N]. destruct E as (e0 & S & ->). exists e0. split; [exact S|reflexivity].
  - destruct (interface w (after s before)) as [e|] eqn:E; [|discriminate]. cbn [bind]. apply Step; [discriminate|]. unfold interface in E. destruct (comm w); [|discriminate].
    destruct (y_names w) as [[|y [|? ?]]|] eqn:Y; try discriminate. destruct (x_names w) as [|x [|? ?]] eqn:X; try discriminate.
    destruct (D (or_introl eq_refl)) as [l L]. destruct (proj2 (after_kind s before) (ex_intro _ l L)) as [l' L'].
    assert (G : forall z, getattribute (after s before) z = first_value (after s before) z) by (intros z; now rewrite L'). rewrite !G in E.
    destruct (first_value _ x) as [vx|] eqn:E1; [|discriminate]. cbn [bind] in E. destruct (first_value _ y) as [vy|] eqn:E2; [|discriminate]. cbn [bind] in E. injection E as <-.
    exists x, y, vx, vy. apply stands in E1; [|exact N]. apply stands in E2; [|exact N]. auto.
Qed.
(** every start, update and interface call works on the quantities the names stand for at that moment *)
Theorem C124_current w s p es : s <> Else -> (In CInterface p -> exists l, s = Dataclass l) -> run w s p = Some es ->
  exists parts, es = concat parts /\ Forall2 (fun m part => sends w s (fst m) (snd m) part) (moments [] p) parts.
Proof. intros N D R. now apply (run_sends w s p N D []). Qed.
(** a program runs through if the names are known when an exchange starts.  missing: interfaces with a dictionary (C124_interface_refuted) *)
Definition possible (w : wrapped) (s : state V) (m : list (call V) * call V) : Prop :=
  match snd m with
  | CStart | CUpdate => names_known w s (fst m)
  | CInterface => names_known w s (fst m) /\ comm w = true /\ length (x_names w) = 1%nat /\ (exists ys, y_names w = Some ys /\ length ys = 1%nat) /\ exists l, s = Dataclass l
  | _ => True
  end.
Lemma known_all s p names : s <> Else -> Forall (known s p) names -> exists vs, all_some (map (first_value (after s p)) names) = Some vs.
Proof.
  intros N F. assert (X : exists vs, Forall2 (stands_for s p) names vs) by (induction F as [|x names [v V0] _ [vs IH]]; [exists []; constructor|exists (v :: vs); now constructor]).
  destruct X as [vs X]. exists vs. now apply all_stands.
Qed.
Theorem C124_runs_partial w s p : s <> Else -> Forall (possible w s) (moments [] p) -> exists es, run w s p = Some es.
Proof.
  intros N. change s with (after s []) at 2. generalize (@nil (call V)). induction p as [|c p IH]; intros before F; cbn [run moments] in *; [eauto|]. inversion F as [|? ? F1 F2]; subst.
  assert (ST : names_known w s before -> exists e, start w (after s before) = Some e).
  { intros [K1 K2]. rewrite start_is by now apply after_else. destruct (known_all s before _ N K1) as [vs ->]. cbn [bind]. destruct (y_names w); [|eauto]. destruct (known_all s before _ N K2) as [vy ->]. cbn [bind]. eauto. }
  destruct (IH _ F2) as [r R]. destruct c as [x v| | | |]; cbn [possible snd fst] in F1; rewrite after_app in R; cbn [after] in R.
  - eauto.
  - destruct (ST F1) as [e ->]. cbn [bind]. rewrite R. cbn [bind]. eauto.
  - rewrite R. cbn [bind]. eauto.
  - unfold update. destruct (ST F1) as [e ->]. cbn [bind]. rewrite R. cbn [bind]. eauto.
  - destruct F1 as ([K1 K2] & C & LX & (ys & Y & LY) & l & L). unfold interface. rewrite C, Y in *. destruct (x_names w) as [|x [|? ?]]; try discriminate LX. destruct ys as [|y [|? ?]]; try discriminate LY.
    destruct (proj2 (after_kind s before) (ex_intro _ l L)) as [l' L']. assert (G : forall z, getattribute (after s before) z = first_value (after s before) z) by (intros z; now rewrite L'). rewrite !G.
    inversion K1 as [|? ? [vx VX] _]; subst. inversion K2 as [|? ? [vy VY] _]; subst. apply stands in VX; [|discriminate]. apply stands in VY; [|discriminate]. rewrite VX, VY. cbn [bind]. rewrite R. cbn [bind]. eauto.
Qed.
End Props.
Print Assumptions C124_current.
Print Assumptions C124_runs_partial.

(** a dictionary that can be exchanged cannot be synchronized at interfaces *)
Theorem C124_interface_refuted : exists (w : wrapped) (s : state nat) es, comm w = true /\ length (x_names w) = 1%nat /\ names_known w s [] /\ run w s [CUpdate] = Some es /\ run w s [CInterface] = None.
Proof.
  exists (Wrapped ["u"%string] (Some ["v"%string]) true), (Dictionary [("u"%string, 1); ("v"%string, 2)]%nat). eexists. split; [reflexivity|]. split; [reflexivity|].
  split; [split; repeat constructor; [exists 1%nat|exists 2%nat]; reflexivity|]. split; reflexivity.
Qed.
Print Assumptions C124_interface_refuted.
(** check_for_attribute says whether a dictionary has the entry; of a dataclass it raises where it should say no, and its answer is the value of the attribute *)
Theorem C124_check_partial {V} truth (l : dict V) x : check_for_attribute truth (Dictionary l) x = Some true <-> exists v, In (x, v) l.
Proof.
  cbn [check_for_attribute]. destruct (get l x) as [v|] eqn:G.
  - split; [intros _; exists v; now apply get_in|reflexivity].
  - split; [discriminate|]. intros [v I]. exfalso. apply get_none in G. apply G. unfold keys. change x with (fst (x, v)). now apply in_map.
Qed.
Print Assumptions C124_check_partial.
Theorem C124_check_refuted : exists (l : dict Z) x y, (forall v, ~ In (x, v) l) /\ check_for_attribute (fun v => negb (v =? 0)%Z) (Dataclass l) x = None
  /\ In (y, 0%Z) l /\ check_for_attribute (fun v => negb (v =? 0)%Z) (Dataclass l) y = Some false.
Proof. exists [("dt"%string, 0%Z)], "u"%string, "dt"%string. split; [intros v [[=]|[]]|]. split; [reflexivity|]. split; [now left|reflexivity]. Qed.
Print Assumptions C124_check_refuted.

(** with a state that is neither, an exchange is refused, not skipped *)
Theorem C124_refused {V} w (p : list (call V)) : In CStart p \/ In CUpdate p -> run w Else p = None.
Proof.
  assert (S : @start V w Else = None) by (unfold start; destruct (y_names w); reflexivity).
  induction p as [|c p IH]; intros H; [now destruct H|]. assert (H' : c = CStart \/ c = CUpdate \/ In CStart p \/ In CUpdate p) by (cbn in H; intuition auto).
  destruct c as [x v| | | |]; cbn [run bind_name].
  - apply IH. destruct H' as [H'|[H'|H']]; try discriminate H'; exact H'.
  - now rewrite S.
  - rewrite IH; [reflexivity|]. destruct H' as [H'|[H'|H']]; try discriminate H'; exact H'.
  - unfold update. now rewrite S.
  - rewrite IH; [now destruct (interface w Else)|]. destruct H' as [H'|[H'|H']]; try discriminate H'; exact H'.
Qed.
Print Assumptions C124_refused.
Example C124_refused_case : run (V := nat) (Wrapped ["u"%string] None false) Else [CWait; CUpdate] = None.
Proof. reflexivity. Qed.

(** a case: the attribute is replaced between two exchanges *)
Definition case_w := Wrapped ["u"; "v"]%string None false.
Definition case_s : state nat := Dataclass [("u"%string, 1); ("v"%string, 2)]%nat.
Definition case_p : list (call nat) := [CUpdate; Bind "u"%string 5; CStart; Bind "v"%string 6; CWait]%nat.
Example C124_case : case_s <> Else /\ Forall (possible case_w case_s) (moments [] case_p) /\ run case_w case_s case_p = Some [Start [1; 2] None; Wait; Start [5; 2] None; Wait]%nat.
Proof.
  split; [discriminate|]. split; [|reflexivity]. unfold case_p, possible, names_known, known. cbn [moments app].
  repeat (constructor; [cbn; repeat split; repeat constructor; eexists; reflexivity|]). constructor.
Qed.
