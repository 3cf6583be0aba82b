(** C39, C40, C47, C59: column algorithms.  Model and specification in ColumnModel.v. *)
From Coq Require Import Field QArith Qcanon.
From Verif Require Import Base Dict ColumnModel ColumnProofs.

(** C39. In any field, for every column height n >= 1, every coefficients a, b, c, d whose leading blocks are all
    non-singular (the pivots of the elimination are the quotients of successive [minor]s), and whatever x and delta
    contained before: the x returned satisfies all n equations, it is the only such column on the n levels, levels beyond
    n are untouched; and the masked solver does exactly that on columns with the flag, and leaves x and delta alone on
    the others. *)
Theorem C39_solves :
  forall F zero one add mul sub opp div inv, field_theory zero one add mul sub opp div inv eq ->
  forall (a b c d : column F) n x0 delta0 mask x delta, (1 <= n)%nat ->
  (forall k, (1 <= k <= n)%nat -> minor F one mul sub a b c k <> zero) ->
  masked_tridiag_solve F mul sub div a b c d mask n x0 delta0 = (x, delta) ->
  (mask = true -> (x, delta) = tridiag_solve F mul sub div a b c d n x0 delta0 /\
                  solves F zero add mul a b c d n x /\
                  (forall y, solves F zero add mul a b c d n y -> forall k, (k < n)%nat -> y k = x k) /\
                  (forall k, (n <= k)%nat -> x k = x0 k /\ delta k = delta0 k)) /\
  (mask = false -> x = x0 /\ delta = delta0).
Proof.
  intros F zero one add mul sub opp div inv Fth a b c d n x0 delta0 mask x delta Hn M E.
  rewrite (masked_ok F mul sub div a b c d) in E. split; intros ->.
  - destruct (solve_ok F zero one add mul sub opp div inv Fth a b c d n x0 delta0 x delta Hn M E) as [S U].
    split; [auto|]. split; [auto|]. split; [|exact U]. intros y Sy. apply (solve_unique F zero one add mul sub opp div inv Fth a b c d n y x M Sy S).
  - apply pair_equal_spec in E. destruct E. subst. auto.
Qed.
Print Assumptions C39_solves.

(** three levels over the rationals: a = 1, b = 4, c = 2, d = 7, 11, 13 *)
Definition q (z : Z) : Qc := Q2Qc (inject_Z z).
Example C39_case :
  let a := fun _ => q 1 in let b := fun _ => q 4 in let c := fun _ => q 2 in
  let d := fun k => match k with O => q 6 | S O => q 7 | _ => q 5 end in
  map (minor Qc (q 1) Qcmult Qcminus a b c) [1; 2; 3]%nat = [q 4; q 14; q 48] /\
  map (fst (tridiag_solve Qc Qcmult Qcminus Qcdiv a b c d 3 (fun _ => q 0) (fun _ => q 0))) [0; 1; 2]%nat = [q 1; q 1; q 1] /\
  field_theory (q 0) (q 1) Qcplus Qcmult Qcminus Qcopp Qcdiv Qcinv eq.
Proof. split; [vm_compute|split; [vm_compute|apply Qcft]]; repeat (f_equal; try apply Qc_is_canon; try reflexivity). Qed.

(** C40. Column maximum ([better] is >) and minimum ([better] is <), for any strict order in which "not better" is
    transitive (every order of numbers; NaN excluded): the value is the one stored at the returned index, the index is in the
    range, no element of the range is beyond the value, everything before the index is strictly worse; and only the
    elements in the range matter. *)
Theorem C40_extremum :
  forall V (better : V -> V -> bool),
  (forall x y, better x y = true -> better y x = false) ->
  (forall x y z, better x y = false -> better y z = false -> better x z = false) ->
  forall field start last, (start <= last)%Z ->
  exists v i, column_extremum V better field start last = (v, i) /\ (start <= i <= last)%Z /\ v = field i /\
    (forall k, (start <= k <= last)%Z -> better (field k) v = false) /\
    (forall k, (start <= k < i)%Z -> better v (field k) = true) /\
    (forall other, (forall k, (start <= k <= last)%Z -> other k = field k) -> column_extremum V better other start last = (v, i)).
Proof.
  intros V better asym nt field start last H.
  assert (irr : forall x, better x x = false) by (intros x; destruct (better x x) eqn:E; auto; rewrite (asym _ _ E) in E; discriminate).
  pose proof (extremum_ok V better irr asym nt field start last H) as G.
  destruct (column_extremum V better field start last) as [v i] eqn:E. destruct G as (G1 & G2 & G3 & G4).
  exists v, i. repeat split; try apply G1; auto. intros other Eo. rewrite (extremum_ext V better other field); auto.
Qed.
Print Assumptions C40_extremum.

(** maximum 7 first at level 2 of levels 1..4; level 0 holds 9 *)
Example C40_case :
  let f := fun k => nth (Z.to_nat k) [9; 3; 7; 7; 5; 8]%Z 0%Z in
  column_extremum Z Z.gtb f 1 4 = (7%Z, 2%Z) /\ column_extremum Z Z.ltb f 2 5 = (5%Z, 4%Z) /\
  (forall x y, Z.gtb x y = true -> Z.gtb y x = false) /\
  (forall x y z, Z.gtb x y = false -> Z.gtb y z = false -> Z.gtb x z = false).
Proof. repeat split; intros; lia. Qed.

(** C47. For every set of column parameters and every npz >= 1: a list of blocks (start, size) is returned; every level
    below npz lies in exactly one block; blocks are non-empty, within 0..npz, each starts where the previous one ends; all parameters
    are constant on a block; the parameters of neighbouring blocks differ.  (The parameters at a level are those columns that
    are long enough.) *)
Theorem C47_blocks :
  forall V (eqb : V -> V -> bool), (forall x y, eqb x y = true <-> x = y) ->
  forall info npz, (1 <= npz)%nat ->
  exists bs, get_kstarts V eqb info npz = Some bs /\
    (forall k, (k < npz)%nat -> exists! i, exists p, nth_error bs i = Some p /\ covers p k) /\
    (exists n, nth_error bs 0 = Some (0%nat, n)) /\
    (forall i s n, nth_error bs i = Some (s, n) ->
       (1 <= n)%nat /\ (s + n <= npz)%nat /\
       (forall j, (s <= j < s + n)%nat -> column_vals V info j = column_vals V info s) /\
       (forall s' n', nth_error bs (S i) = Some (s', n') -> s' = (s + n)%nat /\ column_vals V info s' <> column_vals V info s)).
Proof.
  intros V eqb es info npz H. destruct (kstarts_good V eqb es info npz H) as (bs & E & N & G). exists bs. split; auto.
  split; [intros k Hk; apply (good_covers V info bs 0 npz G); lia|]. split.
  - destruct bs as [|[s n] bs]; [congruence|]. cbn [good] in G. destruct G as (-> & _). exists n. reflexivity.
  - intros i s n Ei. destruct (good_blocks V info bs 0 npz G i s n Ei) as (A1 & A2 & A3 & A4 & A5). repeat split; auto; apply (A5 _ _ H0).
Qed.
Print Assumptions C47_blocks.

(** ... and [k_split_run] calls the function once per block, in order, with the values of the split variables at the block's
    first level; so a level's parameters are those of the call that handles it (if they are among the columns split on). *)
Theorem C47_calls :
  forall V (eqb : V -> V -> bool), (forall x y, eqb x y = true <-> x = y) ->
  forall info npz bs, (1 <= npz)%nat -> get_kstarts V eqb info npz = Some bs ->
  (forall name v, In (name, v) info -> (npz <= length v)%nat) ->
  exists calls, k_split_run V bs info = Some calls /\ map fst calls = bs /\
    (forall s n vals, In (s, n, vals) calls -> forall k, covers (s, n) k -> vals = column_vals V info k).
Proof.
  intros V eqb es info npz bs H E L. destruct (kstarts_good V eqb es info npz H) as (bs' & E' & N & G). rewrite E in E'. apply some_inj in E'. subst bs'.
  clear E N. revert G. generalize 0%nat as k0. clear H. induction bs as [|[s n] bs IH]; intros k0 G.
  - exists []. repeat split. intros s n vals [].
  - cbn [good] in G. destruct G as (-> & G1 & G2 & G3 & G4 & G5). destruct (IH _ G5) as (cs & Ec & Em & Hc).
    cbn [k_split_run]. rewrite Ec.
    assert (B : forallb (fun '(_, v) => (k0 <? length v)%nat) info = true).
    { apply forallb_forall. intros [nm v] I. apply L in I. apply Nat.ltb_lt. lia. }
    rewrite B. eexists. split; [reflexivity|]. split; [cbn; f_equal; exact Em|].
    intros s' n' vals [E|I] k C; [|eapply Hc; eauto]. injection E as <- <- <-.
    symmetry. apply G3. exact C.
Qed.
Print Assumptions C47_calls.

Example C47_case :
  let info := [("nord", [0; 0; 2; 2; 2]); ("damp", [5; 5; 5; 7; 7])]%string%Z in
  get_kstarts Z Z.eqb info 5 = Some [(0, 2); (2, 1); (3, 2)]%nat /\
  k_split_run Z [(0, 2); (2, 1); (3, 2)]%nat info =
    Some [((0, 2)%nat, [("nord"%string, 0%Z); ("damp"%string, 5%Z)]); ((2, 1)%nat, [("nord"%string, 2%Z); ("damp"%string, 5%Z)]);
          ((3, 2)%nat, [("nord"%string, 2%Z); ("damp"%string, 7%Z)])].
Proof. split; vm_compute; reflexivity. Qed.

(** the split is not defined on an empty column: npz = 0 raises an IndexError *)
Theorem C47_empty_refuted : exists info, get_kstarts Z Z.eqb info 0 = None.
Proof. exists [("nord"%string, [1%Z])]. reflexivity. Qed.
Print Assumptions C47_empty_refuted.

(** C59 (partial). Over any number type: the coefficients are accepted exactly when there are km + 1 of each, the mid-level
    coordinate eta_i = half * ((ak_i + ak_(i+1)) / ps + bk_i + bk_(i+1)) is non-decreasing, so is its image under the
    vertical-coordinate map, and some bk is zero (and there is an ak_0); then ptop = ak_0, and - if km is not 91 - ks is the
    last level with bk = 0.  Missing: km = 91, see [C59_ks_refuted]. *)
Theorem C59_validated_partial :
  forall F (add mul div : F -> F -> F) (leb : F -> F -> bool) (is_zero : F -> bool) (half ps : F) (vc : F -> F) km ak bk,
  let mid i x := exists a0 a1 b0 b1, nth_error ak i = Some a0 /\ nth_error ak (S i) = Some a1 /\ nth_error bk i = Some b0 /\
                   nth_error bk (S i) = Some b1 /\ x = mul half (add (add (div (add a0 a1) ps) b0) b1) in
  let valid := Z.of_nat (length ak) = (km + 1)%Z /\ Z.of_nat (length bk) = (km + 1)%Z /\
    (forall i x y, mid i x -> mid (S i) y -> leb x y = true /\ leb (vc x) (vc y) = true) /\
    (exists i x, nth_error bk i = Some x /\ is_zero x = true) in
  (valid <-> exists r, set_coefficients F add mul div leb is_zero half ps vc km ak bk = Some r) /\
  (forall ks ptop, set_coefficients F add mul div leb is_zero half ps vc km ak bk = Some (ks, ptop) ->
     nth_error ak 0 = Some ptop /\
     (km <> 91%Z -> (exists x, nth_error bk ks = Some x /\ is_zero x = true) /\
                    forall i x, nth_error bk i = Some x -> is_zero x = true -> (i <= ks)%nat)).
Proof.
  intros F add mul div leb is_zero half ps vc km ak bk mid valid.
  assert (Mid : forall i x, mid i x <-> nth_error (compute_eta F add mul div half ps ak bk) i = Some x).
  { intros i x. rewrite eta_nth. unfold mid. split.
    - intros (a0 & a1 & b0 & b1 & -> & -> & -> & -> & ->). reflexivity.
    - destruct (nth_error ak i) as [a0|], (nth_error ak (S i)) as [a1|], (nth_error bk i) as [b0|], (nth_error bk (S i)) as [b1|]; try discriminate.
      intros E. apply some_inj in E. exists a0, a1, b0, b1. auto 10. }
  assert (ND : (forall i x y, mid i x -> mid (S i) y -> leb x y = true /\ leb (vc x) (vc y) = true) <->
    non_decreasing F leb (compute_eta F add mul div half ps ak bk) = true /\ non_decreasing F leb (map vc (compute_eta F add mul div half ps ak bk)) = true).
  { rewrite !non_decreasing_spec. split.
    - intros H. split; intros i x y Ex Ey.
      + apply (H i); apply Mid; auto.
      + rewrite nth_error_map in Ex, Ey. destruct (nth_error (compute_eta F add mul div half ps ak bk) i) as [x'|] eqn:E1; [|discriminate].
        destruct (nth_error (compute_eta F add mul div half ps ak bk) (S i)) as [y'|] eqn:E2; [|discriminate].
        cbn in Ex, Ey. apply some_inj in Ex, Ey. subst. apply (H i); apply Mid; auto.
    - intros [H1 H2] i x y Mx My. apply Mid in Mx, My. split; [apply (H1 i); auto|]. apply (H2 i); rewrite nth_error_map; [rewrite Mx|rewrite My]; auto. }
  unfold valid. rewrite ND. split; [split|].
  - intros (L1 & L2 & [N1 N2] & Z0). 
    assert (Hp : exists p, nth_error ak 0 = Some p).
    { destruct Z0 as (i & x & E & _). destruct ak as [|p ak]; [|exists p; auto]. assert (length bk = 0%nat) by (cbn in L1; lia).
      destruct bk; [destruct i; discriminate|discriminate]. }
    destruct Hp as [p Hp]. destruct (coefficients_accepted F add mul div leb is_zero half ps vc km ak bk p L1 L2 N1 N2 Z0 Hp) as [ks E]. eauto.
  - intros [[ks p] E]. destruct (coefficients_ok F add mul div leb is_zero half ps vc km ak bk ks p E) as (A & B & C & D & Z0 & _). auto.
  - intros ks p E. destruct (coefficients_ok F add mul div leb is_zero half ps vc km ak bk ks p E) as (_ & _ & _ & _ & _ & G1 & G2). auto.
Qed.
Print Assumptions C59_validated_partial.

Definition zdiv (x y : Z) : Z := (x / y)%Z.
Example C59_case :
  set_coefficients Z Z.add Z.mul zdiv Z.leb (Z.eqb 0) 1%Z 10%Z (fun x => (x - 1) * 3)%Z 4 [20; 40; 60; 30; 0]%Z [0; 0; 0; 50; 100]%Z = Some (2%nat, 20%Z) /\
  set_coefficients Z Z.add Z.mul zdiv Z.leb (Z.eqb 0) 1%Z 10%Z (fun x => (x - 1) * 3)%Z 4 [20; 40; 60; 30; 0]%Z [0; 50; 0; 0; 0]%Z = None.
Proof. split; vm_compute; reflexivity. Qed.

(** Full statement: ks is the last pure-pressure level for every km.  False: 91 levels are special-cased to ks = 0, whatever bk. *)
Theorem C59_ks_refuted : exists ak bk ptop, set_coefficients Z Z.add Z.mul zdiv Z.leb (Z.eqb 0) 1%Z 10%Z (fun x => x) 91 ak bk = Some (0%nat, ptop) /\
  nth_error bk 1 = Some 0%Z.
Proof. exists (repeat 5%Z 92), (0%Z :: 0%Z :: repeat 1%Z 90), 5%Z. split; vm_compute; reflexivity. Qed.
Print Assumptions C59_ks_refuted.
