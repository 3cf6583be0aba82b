(** C102: the Coriolis parameter. *)
From Coq Require Import Reals Lra.
From Verif Require Import Base Dict PartModel DecompModel HaloModel GridModel AllocModel CoriModel.
Open Scope R_scope.

Section C102.
  Variables (Float : dtype) (omega : R).

  Lemma new_is (d : arr R) ds u b o e nh : (dt d = Float \/ is_float (dt d) = false) ->
    length ds = length (shape d) -> length o = length (shape d) -> length e = length (shape d) ->
    new_quantity Float d ds u b (Some o) (Some e) false nh = Some (Quantity d ds u o e nh b []).
  Proof.
    intros P L1 L2 L3. unfold new_quantity. rewrite L1, L2, L3, Nat.eqb_refl. cbn [andb].
    assert (X : is_float (dt d) && negb (dtype_eqb (dt d) Float) = false).
    { destruct P as [->| ->]; [|reflexivity]. destruct Float; cbn; auto. }
    cbn [negb andb]. rewrite X. reflexivity.
  Qed.
  Definition coriolis (l q : quantity R) : Prop :=
    same_points q l /\ units q = "1/s"%string /\ dt (data q) = Float /\ forall i, elt (data q) i = 2 * omega * sin (elt (data l) i).
  Lemma lat_is l : well_made l -> exists q, fC_from_lat Float omega l = Some q /\ coriolis l q.
  Proof.
    intros (L1 & L2 & L3). unfold fC_from_lat, fC_from_data. rewrite new_is; auto. eexists. split; [reflexivity|]. repeat split.
  Qed.

  (** what the caches hold *)
  Definition holds (l la : quantity R) (g : grid) : Prop :=
    lat g = l /\ lat_agrid g = la /\
    (_fC g = None \/ _fC g = fC_from_lat Float omega l) /\ (_fC_agrid g = None \/ _fC_agrid g = fC_from_lat Float omega la).
  Lemma read_holds l la p g : well_made l -> well_made la -> holds l la g ->
    fst (read Float omega p g) = fC_from_lat Float omega (match p with Corners => l | Centres => la end) /\ holds l la (snd (read Float omega p g)).
  Proof.
    intros W Wa (E1 & E2 & C1 & C2). destruct (lat_is l W) as (q & Q & _). destruct (lat_is la Wa) as (qa & Qa & _).
    destruct p; cbn [read].
    - destruct (_fC g) as [q0|] eqn:E; cbn [fst snd].
      + destruct C1 as [C1|C1]; [discriminate|]. split; [exact C1|]. unfold holds. rewrite E. auto.
      + rewrite E1, Q. cbn [fst snd]. split; [reflexivity|]. unfold holds. cbn. rewrite Q. auto.
    - destruct (_fC_agrid g) as [q0|] eqn:E; cbn [fst snd].
      + destruct C2 as [C2|C2]; [discriminate|]. split; [exact C2|]. unfold holds. rewrite E. auto.
      + rewrite E2, Qa. cbn [fst snd]. split; [reflexivity|]. unfold holds. cbn. rewrite Qa. auto.
  Qed.

  (** computed from the latitudes: at each place 2 omega sin(lat), whatever was read before; every read gives the same *)
  Theorem C102_computed : forall l la, well_made l -> well_made la ->
    exists g q qa, new_grid Float l la None None = Some g /\ coriolis l q /\ coriolis la qa /\
      forall ps, reads Float omega ps g = map (fun p => Some (match p with Corners => q | Centres => qa end)) ps.
  Proof.
    intros l la W Wa. destruct (lat_is l W) as (q & Q & Cq). destruct (lat_is la Wa) as (qa & Qa & Cqa).
    exists (Grid l la None None), q, qa. split; [reflexivity|]. split; [exact Cq|]. split; [exact Cqa|].
    assert (Hg : holds l la (Grid l la None None)) by (unfold holds; cbn; auto). revert Hg. generalize (Grid l la None None). intros g Hg ps. revert g Hg.
    induction ps as [|p ps IH]; intros g Hg; [reflexivity|]. cbn [reads map]. destruct (read_holds l la p g W Wa Hg) as [E Hg']. rewrite E, (IH _ Hg').
    f_equal. destruct p; assumption.
  Qed.

  (** it is within twice the rotation rate, zero at the equator, and has the sign of the latitude *)
  Theorem C102_sign : forall l q i, 0 < omega -> coriolis l q -> - PI / 2 <= elt (data l) i <= PI / 2 ->
    - (2 * omega) <= elt (data q) i <= 2 * omega /\
    (elt (data l) i = 0 -> elt (data q) i = 0) /\ (0 < elt (data l) i -> 0 < elt (data q) i) /\ (elt (data l) i < 0 -> elt (data q) i < 0).
  Proof.
    intros l q i O (_ & _ & _ & E) B. rewrite E. pose proof (SIN_bound (elt (data l) i)) as [S1 S2]. pose proof PI_RGT_0 as P.
    split; [split; nra|]. split; [intros ->; rewrite sin_0; lra|]. split; intros H.
    - assert (0 < sin (elt (data l) i)) by (apply sin_gt_0; lra). nra.
    - assert (0 < sin (- elt (data l) i)) by (apply sin_gt_0; lra). rewrite sin_neg in *. nra.
  Qed.

  (** given by the user: at the corners, as given *)
  Theorem C102_given_partial : forall l la fc fca, well_made l -> well_made la ->
    length (shape fc) = length (shape (data l)) -> length (shape fca) = length (shape (data l)) -> dt fc = Float -> dt fca = Float ->
    exists g q qa, new_grid Float l la (Some fc) (Some fca) = Some g /\
      (forall ps, reads Float omega ps g = map (fun p => Some (match p with Corners => q | Centres => qa end)) ps) /\
      data q = fc /\ dims q = dims l /\ origin q = origin l /\ extent q = extent l /\ nhalo q = nhalo l /\ backend q = backend l /\
      data qa = fca.
  Proof.
    intros l la fc fca (L1 & L2 & L3) _ S1 S2 D1 D2. unfold new_grid, fC_from_data.
    rewrite new_is by (try (left; assumption); congruence). cbn [bind]. rewrite new_is by (try (left; assumption); congruence). cbn [bind].
    eexists. eexists. eexists. split; [reflexivity|]. split.
    - induction ps as [|p ps IH]; [reflexivity|]. cbn [reads map]. destruct p; cbn [read _fC _fC_agrid fst snd]; rewrite IH; reflexivity.
    - cbn. do 6 (split; [reflexivity|]). reflexivity.
  Qed.
End C102.

(** a case: three by two cells with one halo point *)
Definition C102_lat : quantity R := Quantity (Arr [6; 5]%Z (fun _ => PI / 6) Float64) [H AI true; H AJ true] "radians" [1; 1]%Z [4; 3]%Z 1%Z "st:numpy:cpu:IJK" [].
Definition C102_lat_agrid : quantity R := Quantity (Arr [6; 5]%Z (fun _ => PI / 6) Float64) [H AI false; H AJ false] "radians" [1; 1]%Z [3; 2]%Z 1%Z "st:numpy:cpu:IJK" [].
Example C102_case : well_made C102_lat /\ well_made C102_lat_agrid /\ - PI / 2 <= elt (data C102_lat) [2; 2]%Z <= PI / 2 /\
  exists q, fC_from_lat Float64 (1 / 10) C102_lat = Some q /\ elt (data q) [2; 2]%Z = 1 / 10.
Proof.
  split; [repeat split|]. split; [repeat split|]. pose proof PI_RGT_0. split; [cbn; lra|]. eexists. split; [reflexivity|]. cbn. rewrite sin_PI6. lra.
Qed.

(** values given for the cell centres are labelled as corner values: one row and one column too many *)
Theorem C102_agrid_refuted : exists g q, 
  new_grid Float64 C102_lat C102_lat_agrid None (Some (Arr [6; 5]%Z (fun _ => 1 / 10) Float64)) = Some g /\
  fst (read Float64 (1 / 10) Centres g) = Some q /\ dims q = [H AI true; H AJ true] /\ dims (lat_agrid g) = [H AI false; H AJ false] /\
  extent q = [4; 3]%Z /\ extent (lat_agrid g) = [3; 2]%Z /\ ~ same_points q (lat_agrid g).
Proof.
  eexists. eexists. split; [reflexivity|]. split; [reflexivity|]. do 4 (split; [reflexivity|]). intros (E & _). discriminate.
Qed.

Print Assumptions C102_computed.
Print Assumptions C102_sign.
Print Assumptions C102_given_partial.
Print Assumptions C102_agrid_refuted.
