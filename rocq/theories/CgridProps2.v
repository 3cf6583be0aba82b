(** Property C91: lengths of the C-grid (exact arithmetic) *)
Require Import Reals Lra Lia ZArith Bool List.
From Verif Require Import Base SphereModel SphereProofs SphereProps SphereProps2 GnomModel GnomProofs EdgeModel CgridModel CgridProofs CgridProps.
Local Open Scope Z_scope.

(** ** Specification *)
(** the distance of the centres of two cells *)
Definition centres (radius : R) (agrid : lonlat) (i j i' j' : Z) : R :=
  great_circle_distance (fst (at2 agrid i j)) (fst (at2 agrid i' j')) (snd (at2 agrid i j)) (snd (at2 agrid i' j')) radius.
(** twice the distance from the middle of a side of cell (i, j), between the corners (k, l) and (k', l'), to the centre of the cell *)
Definition twice_to_side (radius : R) (grid agrid : lonlat) (k l k' l' i j : Z) : R :=
  2 * great_circle_distance_xyz (half (xyz_of (at2 grid k l)) (xyz_of (at2 grid k' l'))) (xyz_of (at2 agrid i j)) radius.
(** the width across the left side of cell (i, j) *)
Definition c_width (radius : R) (grid agrid : lonlat) (wx wy : Z) (left right : bool) (i j : Z) : R :=
  if j =? wy + 6 then 0
  else if (3 <=? j) && (j <=? wy + 2) && left && (i =? 3) then twice_to_side radius grid agrid 3 j 3 (j + 1) 3 j
  else if (3 <=? j) && (j <=? wy + 2) && right && (i =? wx + 3) then twice_to_side radius grid agrid (wx + 3) j (wx + 3) (j + 1) (wx + 2) j
  else if i =? 0 then centres radius agrid 0 j 1 j
  else if i =? wx + 6 then centres radius agrid (wx + 4) j (wx + 5) j
  else centres radius agrid (i - 1) j i j.
(** the height across the lower side of cell (i, j) *)
Definition c_height (radius : R) (grid agrid : lonlat) (wx wy : Z) (bottom top : bool) (i j : Z) : R :=
  if i =? wx + 6 then 0
  else if (3 <=? i) && (i <=? wx + 2) && bottom && (j =? 3) then twice_to_side radius grid agrid i 3 (i + 1) 3 i 3
  else if (3 <=? i) && (i <=? wx + 2) && top && (j =? wy + 3) then twice_to_side radius grid agrid i (wy + 3) (i + 1) (wy + 3) i (wy + 2)
  else if j =? 0 then centres radius agrid i 0 i 1
  else if j =? wy + 6 then centres radius agrid i (wy + 4) i (wy + 5)
  else centres radius agrid i (j - 1) i j.

Ltac yes c := let H := fresh in assert (H : c = true) by (first [apply Z.leb_le | apply Z.ltb_lt | apply Z.eqb_eq]; lia); rewrite ?H; clear H.
Ltac no c := let H := fresh in assert (H : c = false) by (first [apply Z.leb_gt | apply Z.ltb_ge | apply Z.eqb_neq]; lia); rewrite ?H; clear H.

Theorem C91_dxc radius grid agrid wx wy left right : has_shape grid wx wy -> has_shape agrid wx wy -> 1 <= wx -> 1 <= wy ->
  exists d, compute_dxc radius grid agrid left right = Some d /\ has_shape d wx wy /\
    forall i j, 0 <= i < wx + 7 -> 0 <= j < wy + 7 -> at2 d i j = c_width radius grid agrid wx wy left right i j.
Proof.
  intros (G0 & G1) (A0 & A1) WX WY. unfold compute_dxc. cbv zeta. rewrite G0, G1.
  set (z := mkArr2 (wx + 7) (wy + 7) (fun _ _ => 0%R)). assert (Z0 : is_arr2 z (wx + 7) (wy + 7) (fun _ _ => 0%R)) by (apply is_self; reflexivity).
  pose proof (is_self grid _ _ G0 G1) as IG. pose proof (is_self agrid _ _ A0 A1) as IA.
  pose proof (is_sl2 agrid _ _ _ None (Some (-1)) None (Some (-1)) 0 (wx + 6) 0 (wy + 6) IA ltac:(bnd) ltac:(bnd) ltac:(bnd) ltac:(bnd) ltac:(lia) ltac:(lia) ltac:(lia) ltac:(lia)) as IS.
  set (a := sl2 agrid None (Some (-1)) None (Some (-1))) in *.
  set (tmp := distance_axis0 radius a).
  assert (IT : is_arr2 tmp (wx + 5) (wy + 6) (fun i j => centres radius agrid i j (i + 1) j)).
  { destruct IS as (S0 & S1 & S). unfold tmp, distance_axis0. split; [cbn [len0]; lia|]. split; [cbn [len1]; lia|]. intros i j I J. cbn [at2].
    rewrite !S by lia. reflexivity. }
  destruct (is_put2 z _ _ _ _ _ _ _ (Some 1) (Some (-1)) None (Some (-1)) 1 (wx + 6) 0 (wy + 6) Z0 IT ltac:(bnd) ltac:(bnd) ltac:(bnd) ltac:(bnd) ltac:(lia) ltac:(lia) ltac:(lia) ltac:(lia) ltac:(lia) ltac:(lia)) as (d1 & -> & I1).
  cbn [bind].
  assert (O : forall T (v : arr T) n f, is_arr v n f -> is_arr2 (one_row v) 1 n (fun _ j => f j)).
  { intros T v n f (V & F). split; [reflexivity|]. split; [exact V|]. intros i j I J. now apply F. }
  pose proof (O _ _ _ _ (is_row _ _ _ _ 0 IT ltac:(lia))) as O1. pose proof (O _ _ _ _ (is_row_neg _ _ _ _ (-1) IT ltac:(lia))) as O2.
  destruct (is_put2 d1 _ _ _ _ _ _ _ (Some 0) (Some 1) None (Some (-1)) 0 1 0 (wy + 6) I1 O1 ltac:(bnd) ltac:(bnd) ltac:(bnd) ltac:(bnd) ltac:(lia) ltac:(lia) ltac:(lia) ltac:(lia) ltac:(lia) ltac:(lia)) as (d2 & -> & I2).
  cbn [bind].
  destruct (is_put2 d2 _ _ _ _ _ _ _ (Some (-1)) None None (Some (-1)) (wx + 6) (wx + 7) 0 (wy + 6) I2 O2 ltac:(bnd) ltac:(bnd) ltac:(bnd) ltac:(bnd) ltac:(lia) ltac:(lia) ltac:(lia) ltac:(lia) ltac:(lia) ltac:(lia)) as (d3 & -> & I3).
  cbn [bind].
  pose proof (is_sl2 _ _ _ _ (Some 3) (Some (-3)) (Some 3) (Some (-3)) 3 (wx + 4) 3 (wy + 4) (is_map2 xyz_of _ _ _ _ IG) ltac:(bnd) ltac:(bnd) ltac:(bnd) ltac:(bnd) ltac:(lia) ltac:(lia) ltac:(lia) ltac:(lia)) as ID.
  pose proof (is_sl2 _ _ _ _ (Some 3) (Some (-3)) (Some 3) (Some (-3)) 3 (wx + 3) 3 (wy + 3) (is_map2 xyz_of _ _ _ _ IS) ltac:(bnd) ltac:(bnd) ltac:(bnd) ltac:(bnd) ltac:(lia) ltac:(lia) ltac:(lia) ltac:(lia)) as IAG.
  pose proof (is_sl2 _ _ _ _ (Some 3) (Some (-3)) (Some 3) (Some (-4)) 3 (wx + 4) 3 (wy + 3) I3 ltac:(bnd) ltac:(bnd) ltac:(bnd) ltac:(bnd) ltac:(lia) ltac:(lia) ltac:(lia) ltac:(lia)) as IV.
  set (dg := sl2 (map2 xyz_of grid) _ _ _ _) in *. set (ag := sl2 (map2 xyz_of a) _ _ _ _) in *. set (view := sl2 d3 _ _ _ _) in *.
  replace (wy + 4 - 3) with (wy + 1) in ID by ring. replace (wy + 3 - 3) with wy in IAG, IV by ring.
  replace (wx + 4 - 3) with (wx + 1) in ID, IV by ring. replace (wx + 3 - 3) with wx in IAG by ring.
  match type of IV with is_arr2 _ _ _ ?f => set (fc := f) in * end.
  unfold set_tile_border_dxc.
  assert (W : exists v f, (if left then set_west_dxc radius dg ag view else Some view) = Some v /\ is_arr2 v (wx + 1) wy f /\
            forall i j, 0 <= i < wx + 1 -> 0 <= j < wy -> f i j = if left && (i =? 0) then twice_to_side radius grid agrid 3 (3 + j) 3 (3 + j + 1) 3 (3 + j) else fc i j).
  { destruct left; [|exists view, fc; split; [reflexivity|]; split; [exact IV|reflexivity]].
    destruct (west_len radius dg ag view _ _ _ _ _ _ ID IAG ltac:(lia) ltac:(lia) ltac:(lia) _ IV) as (v & E & V).
    eexists; eexists. split; [exact E|]. split; [exact V|]. intros i j I J. cbn [andb]. destruct (i =? 0); [|reflexivity]. unfold twice_to_side.
    replace (3 + (j + 1)) with (3 + j + 1) by ring. reflexivity. }
  destruct W as (v1 & f1 & -> & V1 & F1). cbn [bind].
  assert (E : exists v f, (if right then set_east_dxc radius dg ag v1 else Some v1) = Some v /\ is_arr2 v (wx + 1) wy f /\
            forall i j, 0 <= i < wx + 1 -> 0 <= j < wy -> f i j = if right && (i =? wx) then twice_to_side radius grid agrid (wx + 3) (3 + j) (wx + 3) (3 + j + 1) (wx + 2) (3 + j) else f1 i j).
  { destruct right; [|exists v1, f1; split; [reflexivity|]; split; [exact V1|reflexivity]].
    destruct (east_len radius dg ag v1 _ _ _ _ _ _ ID IAG ltac:(lia) ltac:(lia) ltac:(lia) _ V1) as (v & E & V).
    eexists; eexists. split; [exact E|]. split; [exact V|]. intros i j I J. cbn [andb]. replace (wx + 1 - 1) with wx by ring. destruct (i =? wx); [|reflexivity]. unfold twice_to_side.
    replace (3 + (j + 1)) with (3 + j + 1) by ring. replace (3 + wx) with (wx + 3) by ring. replace (0 + (3 + (wx - 1))) with (wx + 2) by ring. reflexivity. }
  destruct E as (v2 & f2 & -> & V2 & F2). cbn [bind].
  destruct (is_put2 d3 _ _ _ _ _ _ _ (Some 3) (Some (-3)) (Some 3) (Some (-4)) 3 (wx + 4) 3 (wy + 3) I3 V2 ltac:(bnd) ltac:(bnd) ltac:(bnd) ltac:(bnd) ltac:(lia) ltac:(lia) ltac:(lia) ltac:(lia) ltac:(lia) ltac:(lia)) as (r & -> & R0 & R1 & R).
  exists r. split; [reflexivity|]. split; [split; assumption|]. intros i j I J. rewrite R by assumption. cbv beta. unfold c_width.
  destruct (Z.eqb_spec j (wy + 6)) as [-> | NJ].
  { no (wy + 6 <? wy + 3). no (wy + 6 <? wy + 6). rewrite !andb_false_r. reflexivity. }
  assert (OUT : forall i, 0 <= i < wx + 7 -> (if (wx + 6 <=? i) && (i <? wx + 7) && (0 <=? j) && (j <? wy + 6) then centres radius agrid (-1 + (wx + 5)) (j - 0) (-1 + (wx + 5) + 1) (j - 0) else
            if (0 <=? i) && (i <? 1) && (0 <=? j) && (j <? wy + 6) then centres radius agrid 0 (j - 0) (0 + 1) (j - 0) else
            if (1 <=? i) && (i <? wx + 6) && (0 <=? j) && (j <? wy + 6) then centres radius agrid (i - 1) (j - 0) (i - 1 + 1) (j - 0) else 0%R)
            = if i =? 0 then centres radius agrid 0 j 1 j else if i =? wx + 6 then centres radius agrid (wx + 4) j (wx + 5) j else centres radius agrid (i - 1) j i j).
  { clear - NJ J WX WY. intros i I. yes (0 <=? j). yes (j <? wy + 6). rewrite !andb_true_r. replace (j - 0) with j by ring.
    destruct (Z.eqb_spec i 0) as [-> | NI]; [no (wx + 6 <=? 0); yes (0 <=? 0); yes (0 <? 1); reflexivity|].
    destruct (Z.eqb_spec i (wx + 6)) as [-> | NI'].
    - yes (wx + 6 <=? wx + 6). yes (wx + 6 <? wx + 7). cbn [andb]. now replace (-1 + (wx + 5)) with (wx + 4) by ring; replace (wx + 4 + 1) with (wx + 5) by ring.
    - no (wx + 6 <=? i). no (i <? 1). yes (1 <=? i). yes (i <? wx + 6). rewrite andb_false_r. cbn [andb]. now replace (i - 1 + 1) with i by ring. }
  rewrite <- OUT by exact I.
  assert (EJ : (j <? wy + 3) = (j <=? wy + 2)) by (destruct (Z.ltb_spec j (wy + 3)), (Z.leb_spec j (wy + 2)); lia). rewrite EJ.
  destruct ((3 <=? j) && (j <=? wy + 2)) eqn:CJ; [|rewrite <- !andb_assoc, CJ, !andb_false_r; reflexivity].
  rewrite <- (andb_assoc _ (3 <=? j)), CJ, andb_true_r. apply andb_prop in CJ as (C2 & C3). apply Z.leb_le in C2, C3.
  destruct ((3 <=? i) && (i <? wx + 4)) eqn:CI.
  - apply andb_prop in CI as (C0 & C1). apply Z.leb_le in C0. apply Z.ltb_lt in C1. rewrite F2, F1 by lia. unfold fc. cbn [andb].
    replace (3 + (j - 3)) with j by ring. replace (3 + (i - 3)) with i by ring.
    assert (K : (i - 3 =? 0) = (i =? 3)) by (destruct (Z.eqb_spec (i - 3) 0), (Z.eqb_spec i 3); lia).
    assert (L : (i - 3 =? wx) = (i =? wx + 3)) by (destruct (Z.eqb_spec (i - 3) wx), (Z.eqb_spec i (wx + 3)); lia).
    rewrite K, L. destruct (right && (i =? wx + 3)) eqn:B2; [|reflexivity]. apply andb_prop in B2 as (_ & B2). apply Z.eqb_eq in B2. no (i =? 3). rewrite andb_false_r. reflexivity.
  - assert (K : (i =? 3) = false) by (apply Z.eqb_neq; intros ->; revert CI; yes (3 <=? 3); yes (3 <? wx + 4); discriminate).
    assert (L : (i =? wx + 3) = false) by (apply Z.eqb_neq; intros ->; revert CI; yes (3 <=? wx + 3); yes (wx + 3 <? wx + 4); discriminate).
    rewrite K, L, !andb_false_r. reflexivity.
Qed.
Print Assumptions C91_dxc.

Theorem C91_dyc radius grid agrid wx wy bottom top : has_shape grid wx wy -> has_shape agrid wx wy -> 1 <= wx -> 1 <= wy ->
  exists d, compute_dyc radius grid agrid bottom top = Some d /\ has_shape d wx wy /\
    forall i j, 0 <= i < wx + 7 -> 0 <= j < wy + 7 -> at2 d i j = c_height radius grid agrid wx wy bottom top i j.
Proof.
  intros (G0 & G1) (A0 & A1) WX WY. unfold compute_dyc. cbv zeta. rewrite G0, G1.
  set (z := mkArr2 (wx + 7) (wy + 7) (fun _ _ => 0%R)). assert (Z0 : is_arr2 z (wx + 7) (wy + 7) (fun _ _ => 0%R)) by (apply is_self; reflexivity).
  pose proof (is_self grid _ _ G0 G1) as IG. pose proof (is_self agrid _ _ A0 A1) as IA.
  pose proof (is_sl2 agrid _ _ _ None (Some (-1)) None (Some (-1)) 0 (wx + 6) 0 (wy + 6) IA ltac:(bnd) ltac:(bnd) ltac:(bnd) ltac:(bnd) ltac:(lia) ltac:(lia) ltac:(lia) ltac:(lia)) as IS.
  set (a := sl2 agrid None (Some (-1)) None (Some (-1))) in *.
  set (tmp := distance_axis1 radius a).
  assert (IT : is_arr2 tmp (wx + 6) (wy + 5) (fun i j => centres radius agrid i j i (j + 1))).
  { destruct IS as (S0 & S1 & S). unfold tmp, distance_axis1, distance_axis0, transpose. cbn [len0 len1 at2]. split; [cbn [len0]; lia|]. split; [cbn [len1]; lia|]. intros i j I J. cbn [at2].
    rewrite !S by lia. reflexivity. }
  destruct (is_put2 z _ _ _ _ _ _ _ None (Some (-1)) (Some 1) (Some (-1)) 0 (wx + 6) 1 (wy + 6) Z0 IT ltac:(bnd) ltac:(bnd) ltac:(bnd) ltac:(bnd) ltac:(lia) ltac:(lia) ltac:(lia) ltac:(lia) ltac:(lia) ltac:(lia)) as (d1 & -> & I1).
  cbn [bind].
  assert (O : forall T (v : arr T) n f, is_arr v n f -> is_arr2 (transpose (one_row v)) n 1 (fun i _ => f i)).
  { intros T v n f (V & F). split; [exact V|]. split; [reflexivity|]. intros i j I J. now apply F. }
  pose proof (O _ _ _ _ (is_row _ _ _ _ 0 (is_transpose _ _ _ _ IT) ltac:(lia))) as O1. pose proof (O _ _ _ _ (is_row_neg _ _ _ _ (-1) (is_transpose _ _ _ _ IT) ltac:(lia))) as O2.
  destruct (is_put2 d1 _ _ _ _ _ _ _ None (Some (-1)) (Some 0) (Some 1) 0 (wx + 6) 0 1 I1 O1 ltac:(bnd) ltac:(bnd) ltac:(bnd) ltac:(bnd) ltac:(lia) ltac:(lia) ltac:(lia) ltac:(lia) ltac:(lia) ltac:(lia)) as (d2 & -> & I2).
  cbn [bind].
  destruct (is_put2 d2 _ _ _ _ _ _ _ None (Some (-1)) (Some (-1)) None 0 (wx + 6) (wy + 6) (wy + 7) I2 O2 ltac:(bnd) ltac:(bnd) ltac:(bnd) ltac:(bnd) ltac:(lia) ltac:(lia) ltac:(lia) ltac:(lia) ltac:(lia) ltac:(lia)) as (d3 & -> & I3).
  cbn [bind].
  pose proof (is_sl2 _ _ _ _ (Some 3) (Some (-3)) (Some 3) (Some (-3)) 3 (wx + 4) 3 (wy + 4) (is_map2 xyz_of _ _ _ _ IG) ltac:(bnd) ltac:(bnd) ltac:(bnd) ltac:(bnd) ltac:(lia) ltac:(lia) ltac:(lia) ltac:(lia)) as ID.
  pose proof (is_sl2 _ _ _ _ (Some 3) (Some (-3)) (Some 3) (Some (-3)) 3 (wx + 3) 3 (wy + 3) (is_map2 xyz_of _ _ _ _ IS) ltac:(bnd) ltac:(bnd) ltac:(bnd) ltac:(bnd) ltac:(lia) ltac:(lia) ltac:(lia) ltac:(lia)) as IAG.
  pose proof (is_sl2 _ _ _ _ (Some 3) (Some (-4)) (Some 3) (Some (-3)) 3 (wx + 3) 3 (wy + 4) I3 ltac:(bnd) ltac:(bnd) ltac:(bnd) ltac:(bnd) ltac:(lia) ltac:(lia) ltac:(lia) ltac:(lia)) as IV.
  set (dg := sl2 (map2 xyz_of grid) _ _ _ _) in *. set (ag := sl2 (map2 xyz_of a) _ _ _ _) in *. set (view := sl2 d3 _ _ _ _) in *.
  replace (wy + 4 - 3) with (wy + 1) in ID, IV by ring. replace (wy + 3 - 3) with wy in IAG by ring.
  replace (wx + 4 - 3) with (wx + 1) in ID by ring. replace (wx + 3 - 3) with wx in IAG, IV by ring.
  match type of IV with is_arr2 _ _ _ ?f => set (fc := f) in * end.
  unfold set_tile_border_dyc.
  assert (E : exists v f, (if top then set_north_dyc radius dg ag view else Some view) = Some v /\ is_arr2 v wx (wy + 1) f /\
            forall i j, 0 <= i < wx -> 0 <= j < wy + 1 -> f i j = if top && (j =? wy) then twice_to_side radius grid agrid (3 + i) (wy + 3) (3 + i + 1) (wy + 3) (3 + i) (wy + 2) else fc i j).
  { destruct top; [|exists view, fc; split; [reflexivity|]; split; [exact IV|reflexivity]].
    destruct (north_len radius dg ag view _ _ _ _ _ _ ID IAG ltac:(lia) ltac:(lia) ltac:(lia) _ IV) as (v & E & V).
    eexists; eexists. split; [exact E|]. split; [exact V|]. intros i j I J. cbn [andb]. replace (wy + 1 - 1) with wy by ring. destruct (j =? wy); [|reflexivity]. unfold twice_to_side.
    replace (3 + (i + 1)) with (3 + i + 1) by ring. replace (3 + wy) with (wy + 3) by ring. replace (0 + (3 + (wy - 1))) with (wy + 2) by ring. reflexivity. }
  destruct E as (v1 & f1 & -> & V1 & F1). cbn [bind].
  assert (W : exists v f, (if bottom then set_south_dyc radius dg ag v1 else Some v1) = Some v /\ is_arr2 v wx (wy + 1) f /\
            forall i j, 0 <= i < wx -> 0 <= j < wy + 1 -> f i j = if bottom && (j =? 0) then twice_to_side radius grid agrid (3 + i) 3 (3 + i + 1) 3 (3 + i) 3 else f1 i j).
  { destruct bottom; [|exists v1, f1; split; [reflexivity|]; split; [exact V1|reflexivity]].
    destruct (south_len radius dg ag v1 _ _ _ _ _ _ ID IAG ltac:(lia) ltac:(lia) ltac:(lia) _ V1) as (v & E & V).
    eexists; eexists. split; [exact E|]. split; [exact V|]. intros i j I J. cbn [andb]. destruct (j =? 0); [|reflexivity]. unfold twice_to_side.
    replace (3 + (i + 1)) with (3 + i + 1) by ring. reflexivity. }
  destruct W as (v2 & f2 & -> & V2 & F2). cbn [bind].
  destruct (is_put2 d3 _ _ _ _ _ _ _ (Some 3) (Some (-4)) (Some 3) (Some (-3)) 3 (wx + 3) 3 (wy + 4) I3 V2 ltac:(bnd) ltac:(bnd) ltac:(bnd) ltac:(bnd) ltac:(lia) ltac:(lia) ltac:(lia) ltac:(lia) ltac:(lia) ltac:(lia)) as (r & -> & R0 & R1 & R).
  exists r. split; [reflexivity|]. split; [split; assumption|]. intros i j I J. rewrite R by assumption. cbv beta. unfold c_height.
  destruct (Z.eqb_spec i (wx + 6)) as [-> | NI].
  { no (wx + 6 <? wx + 3). no (wx + 6 <? wx + 6). rewrite !andb_false_r. reflexivity. }
  assert (OUT : (if (0 <=? i) && (i <? wx + 6) && (wy + 6 <=? j) && (j <? wy + 7) then centres radius agrid (i - 0) (-1 + (wy + 5)) (i - 0) (-1 + (wy + 5) + 1) else
            if (0 <=? i) && (i <? wx + 6) && (0 <=? j) && (j <? 1) then centres radius agrid (i - 0) 0 (i - 0) (0 + 1) else
            if (0 <=? i) && (i <? wx + 6) && (1 <=? j) && (j <? wy + 6) then centres radius agrid (i - 0) (j - 1) (i - 0) (j - 1 + 1) else 0%R)
            = if j =? 0 then centres radius agrid i 0 i 1 else if j =? wy + 6 then centres radius agrid i (wy + 4) i (wy + 5) else centres radius agrid i (j - 1) i j).
  { clear - NI I J WX WY. yes (0 <=? i). yes (i <? wx + 6). cbn [andb]. replace (i - 0) with i by ring.
    destruct (Z.eqb_spec j 0) as [-> | NJ]; [no (wy + 6 <=? 0); yes (0 <=? 0); yes (0 <? 1); reflexivity|].
    destruct (Z.eqb_spec j (wy + 6)) as [-> | NJ'].
    - yes (wy + 6 <=? wy + 6). yes (wy + 6 <? wy + 7). cbn [andb]. now replace (-1 + (wy + 5)) with (wy + 4) by ring; replace (wy + 4 + 1) with (wy + 5) by ring.
    - no (wy + 6 <=? j). no (j <? 1). yes (1 <=? j). yes (j <? wy + 6). rewrite andb_false_r. cbn [andb]. now replace (j - 1 + 1) with j by ring. }
  rewrite <- OUT.
  assert (EI : (i <? wx + 3) = (i <=? wx + 2)) by (destruct (Z.ltb_spec i (wx + 3)), (Z.leb_spec i (wx + 2)); lia). rewrite EI.
  destruct ((3 <=? i) && (i <=? wx + 2)) eqn:CI; [|reflexivity].
  cbn [andb]. apply andb_prop in CI as (C2 & C3). apply Z.leb_le in C2, C3.
  destruct ((3 <=? j) && (j <? wy + 4)) eqn:CJ.
  - apply andb_prop in CJ as (C0 & C1). apply Z.leb_le in C0. apply Z.ltb_lt in C1. rewrite F2, F1 by lia. unfold fc.
    replace (3 + (j - 3)) with j by ring. replace (3 + (i - 3)) with i by ring.
    assert (K : (j - 3 =? 0) = (j =? 3)) by (destruct (Z.eqb_spec (j - 3) 0), (Z.eqb_spec j 3); lia).
    assert (L : (j - 3 =? wy) = (j =? wy + 3)) by (destruct (Z.eqb_spec (j - 3) wy), (Z.eqb_spec j (wy + 3)); lia).
    rewrite K, L. reflexivity.
  - assert (K : (j =? 3) = false) by (apply Z.eqb_neq; intros ->; revert CJ; yes (3 <=? 3); yes (3 <? wy + 4); discriminate).
    assert (L : (j =? wy + 3) = false) by (apply Z.eqb_neq; intros ->; revert CJ; yes (3 <=? wy + 3); yes (wy + 3 <? wy + 4); discriminate).
    rewrite K, L, !andb_false_r. reflexivity.
Qed.
Print Assumptions C91_dyc.

(** ** the numbers: radius times the angle between the two centres; at the edges twice radius times the angle between the middle of the side and
    the centre, unless one of the two is within 1e-10 of a pole *)
Theorem C91_angle radius agrid i j i' j' : exists t,
  angle_between (xyz_of (at2 agrid i j)) (xyz_of (at2 agrid i' j')) t /\ centres radius agrid i j i' j' = (radius * t)%R.
Proof.
  unfold centres, xyz_of. rewrite !xyz_eq. eapply C71_distance_is_angle; repeat split.
Qed.
Print Assumptions C91_angle.
Theorem C91_edge_angle radius grid agrid k l k' l' i j u v :
  direction (half (xyz_of (at2 grid k l)) (xyz_of (at2 grid k' l'))) u -> direction (xyz_of (at2 agrid i j)) v ->
  (let '(x, y, _) := u in 1 / 10 ^ 10 <= Rabs x + Rabs y)%R -> (let '(x, y, _) := v in 1 / 10 ^ 10 <= Rabs x + Rabs y)%R ->
  exists t, angle_between u v t /\ twice_to_side radius grid agrid k l k' l' i j = (2 * (radius * t))%R.
Proof.
  intros U V NU NV. destruct (C71_distance_xyz_partial _ _ _ _ radius U V NU NV) as (t & T & E). exists t. split; [exact T|]. unfold twice_to_side. now rewrite E.
Qed.
Print Assumptions C91_edge_angle.

(** the cube with one cell per tile (CgridProps): across its left side, at the middle of the side, 45 degrees from the centre *)
Example C91_case : has_shape cube_grid 1 1 /\ has_shape cube_agrid 1 1 /\
  direction (half (xyz_of (at2 cube_grid 3 3)) (xyz_of (at2 cube_grid 3 4))) (sqrt 2 / 2, sqrt 2 / 2, 0)%R /\ direction (xyz_of (at2 cube_agrid 3 3)) (1, 0, 0)%R /\
  (1 / 10 ^ 10 <= Rabs (sqrt 2 / 2) + Rabs (sqrt 2 / 2))%R /\ (1 / 10 ^ 10 <= Rabs 1 + Rabs 0)%R.
Proof.
  rewrite cube_33, cube_34, cube_a33. destruct sqrt2' as [P Q]. destruct third_pos as [T _]. split; [split; reflexivity|]. split; [split; reflexivity|].
  assert (S1 : (1 < sqrt 2)%R) by nra.
  split; [|split; [|split]].
  - exists (third * sqrt 2)%R. unfold half. cbn [vscale vadd]. repeat split; nra.
  - exists 1%R. repeat split; lra.
  - rewrite Rabs_pos_eq by lra. lra.
  - rewrite (Rabs_pos_eq 1), Rabs_R0 by lra. lra.
Qed.
