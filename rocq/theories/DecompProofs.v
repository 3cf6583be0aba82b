(** Proofs about the decomposition. *)
From Verif Require Import Base PartModel PartProofs DecompModel DecompSpec.
From Coq Require Import QArith ZifyBool Lqa.
Open Scope Z_scope.

(** ** Floats *)
Lemma py_int_half q z : (q == (z # 2))%Q -> py_int q = Z.quot z 2.
Proof.
  destruct q as [n d]. unfold Qeq, py_int. cbn [Qnum Qden]. intros E.
  rewrite <- (Z.quot_mul_cancel_r n (Z.pos d) 2) by lia.
  rewrite E. rewrite (Z.mul_comm (Z.pos d) 2). rewrite <- (Z.quot_mul_cancel_r z 2 (Z.pos d)) by lia. reflexivity.
Qed.

Lemma py_int_int q z : (q == inject_Z z)%Q -> py_int q = z.
Proof.
  intros E. rewrite (py_int_half q (2 * z)).
  - rewrite Z.mul_comm. apply Z.quot_mul. lia.
  - rewrite E. unfold Qeq, inject_Z. cbn [Qnum Qden]. lia.
Qed.

Lemma py_round_int q z : (q == inject_Z z)%Q -> py_round q = z.
Proof.
  destruct q as [n d]. unfold Qeq, inject_Z, py_round. cbn [Qnum Qden]. intros E.
  assert (En : n = z * Z.pos d) by lia. rewrite En, Z.div_mul by lia.
  replace (2 * (z * Z.pos d - z * Z.pos d)) with 0 by lia. cbn [Z.ltb Z.compare]. reflexivity.
Qed.

Section FloatFacts.
  Variable rnd : Q -> Q.
  Hypothesis Hrnd : float_like rnd.

  Lemma rnd_int q z : (q == inject_Z z)%Q -> Z.abs z <= 2 ^ 52 -> (rnd q == inject_Z z)%Q.
  Proof.
    intros E H. assert (E2 : (inject_Z z == (2 * z) # 2)%Q) by (unfold Qeq, inject_Z; cbn [Qnum Qden]; lia).
    rewrite E2. apply Hrnd; [rewrite E; exact E2|]. rewrite Z.abs_mul. change (Z.abs 2) with 2.
    change (2 ^ 53) with (2 * 2 ^ 52). lia.
  Qed.

  Lemma edge_top_eq D c : Z.abs (D - c + 2) <= 2 ^ 53 -> edge_top rnd D c = Z.quot (D - c + 2) 2 + 1.
  Proof.
    intros H. unfold edge_top, fdiv. f_equal. apply py_int_half. apply Hrnd; [|exact H].
    unfold Qeq, Qdiv, Qmult, Qinv, inject_Z. cbn [Qnum Qden]. lia.
  Qed.

  Lemma exact_quot a b q : b <> 0 -> a = b * q -> Z.abs q <= 2 ^ 52 ->
    (fdiv rnd (inject_Z a) (inject_Z b) == inject_Z q)%Q.
  Proof.
    intros Hb E Hq. unfold fdiv. apply rnd_int; [|exact Hq].
    rewrite E, inject_Z_mult. field. unfold Qeq, inject_Z. cbn. lia.
  Qed.

  Lemma fdiv_int x y a b q : (x == inject_Z a)%Q -> (y == inject_Z b)%Q -> b <> 0 -> a = b * q -> Z.abs q <= 2 ^ 52 ->
    (fdiv rnd x y == inject_Z q)%Q.
  Proof.
    intros Ex Ey Hb E Hq. unfold fdiv. apply rnd_int; [|exact Hq].
    rewrite Ex, Ey, E, inject_Z_mult. field. unfold Qeq, inject_Z. cbn. lia.
  Qed.

  (** ** The search for an edge size *)
  Lemma loop_sound fuel top start offset factor acc (e : Z) :
    In e (valid_sizes_loop fuel top start offset factor acc) -> In e acc \/ 1 <= e < top.
  Proof.
    revert offset factor acc. induction fuel as [|fuel IH]; intros offset factor acc; [left; assumption|].
    cbn [valid_sizes_loop]. set (index := start + factor * offset).
    set (acc' := if (1 <=? index) && (index <? top) && negb (existsb (Z.eqb index) acc) then acc ++ [index] else acc).
    assert (Hacc : forall x, In x acc' -> In x acc \/ 1 <= x < top).
    { intros x. unfold acc'. destruct ((1 <=? index) && (index <? top) && negb (existsb (Z.eqb index) acc)) eqn:E; [|tauto].
      rewrite in_app_iff. intros [H|[<-|[]]]; [tauto|right; lia]. }
    destruct (index =? 1); intros H; apply IH in H; destruct H as [H|H]; auto.
  Qed.

  Lemma loop_prefix fuel top start offset factor acc :
    exists t, valid_sizes_loop fuel top start offset factor acc = acc ++ t.
  Proof.
    revert offset factor acc. induction fuel as [|fuel IH]; intros offset factor acc.
    { exists []. rewrite app_nil_r. reflexivity. }
    cbn [valid_sizes_loop]. set (index := start + factor * offset).
    set (acc' := if (1 <=? index) && (index <? top) && negb (existsb (Z.eqb index) acc) then acc ++ [index] else acc).
    assert (Hacc : exists t, acc' = acc ++ t).
    { unfold acc'. destruct (_ && negb _); [exists [index]; reflexivity|exists []; rewrite app_nil_r; reflexivity]. }
    destruct Hacc as [t1 ->].
    destruct (index =? 1).
    - destruct (IH 0 1 (acc ++ t1)) as [t2 ->]. exists (t1 ++ t2). apply app_assoc_reverse.
    - destruct (IH (offset + 1) factor (acc ++ t1)) as [t2 ->]. exists (t1 ++ t2). apply app_assoc_reverse.
  Qed.

  Lemma valid_sizes_head D c q :
    1 <= q < edge_top rnd D c -> exists t, valid_edge_tile_sizes rnd D c q = q :: t.
  Proof.
    intros H. unfold valid_edge_tile_sizes. cbn [valid_sizes_loop existsb negb].
    replace (q + -1 * 0) with q by lia.
    replace ((1 <=? q) && (q <? edge_top rnd D c) && true) with true by lia. cbn [app].
    destruct (q =? 1); apply loop_prefix.
  Qed.

  (** ** Accepted extents of one dimension *)
  (** [inner], [edge] cover [cells] cells with [c] ranks. *)
  Definition covers (c cells inner edge : Z) : Prop :=
    0 <= edge /\ 0 <= inner /\ (3 <= c -> 1 <= inner /\ 1 <= edge) /\
    cells = (if c =? 1 then edge else 2 * edge + (c - 2) * inner).

  Lemma subtile_extents_covers D a iface l ratio inner edge :
    0 < fst l <= 2 ^ 52 -> 0 < snd l <= 2 ^ 52 -> size_ok (Dim a iface) D ->
    subtile_extents rnd D a iface l ratio = Some (inner, edge) ->
    covers (by_dim a l 1) (D - if iface then 1 else 0) inner edge.
  Proof.
    intros Hy Hx Hs H. unfold subtile_extents in H. cbn [size_ok] in Hs.
    set (c := by_dim a l 1) in *. assert (Hc : 0 < c <= 2 ^ 52) by (unfold c; destruct a; cbn [by_dim]; lia).
    assert (ED : (if iface then D - 1 else D) = D - if iface then 1 else 0) by (destruct iface; lia).
    rewrite ED in H. set (C := D - if iface then 1 else 0) in *. clear ED.
    assert (HC : 0 <= C <= 2 ^ 52) by (unfold C; destruct iface; lia). clearbody C.
    destruct ((c mod 2 =? 0) && negb (C mod 2 =? 0)) eqn:Eo; [discriminate|].
    destruct ((3 <=? c) && is_horizontal a) eqn:Eh.
    - destruct (find (edge_ok rnd C c) _) as [e|] eqn:F; [|discriminate]. injection H as <- <-.
      apply find_some in F. destruct F as [Hin Hok].
      unfold valid_edge_tile_sizes in Hin. apply loop_sound in Hin. destruct Hin as [[]|Hin].
      assert (Hsmall : c <= C + 2 -> edge_top rnd C c = Z.quot (C - c + 2) 2 + 1).
      { intros. apply edge_top_eq. change (2 ^ 53) with (2 * 2 ^ 52). lia. }
      unfold edge_ok in Hok. apply Z.eqb_eq in Hok. set (i := interior_size rnd C c e) in *.
      destruct (Z_le_gt_dec c (C + 2)) as [Hle|Hgt].
      + rewrite Hsmall in Hin by assumption.
        assert (2 * e <= C - c + 2).
        { pose proof (Z.quot_rem' (C - c + 2) 2). pose proof (Z.rem_bound_pos (C - c + 2) 2). lia. }
        assert (1 <= i) by nia.
        unfold covers. replace (c =? 1) with false by lia. repeat split; lia.
      + (* too many ranks: even the exact computation leaves no room; the sum test then forces a negative interior *)
        exfalso.
        assert (Ht : edge_top rnd C c <= 1).
        { rewrite edge_top_eq by (change (2 ^ 53) with (2 * 2 ^ 52); lia).
          pose proof (Z.quot_opp_l (c - C - 2) 2 ltac:(lia)) as Q2. replace (- (c - C - 2)) with (C - c + 2) in Q2 by lia.
          pose proof (Z.quot_pos (c - C - 2) 2 ltac:(lia) ltac:(lia)). lia. }
        lia.
    - injection H as <- <-. unfold fdiv.
      assert (Hdiv : exists q, C = c * q /\ (c = 1 \/ c = 2)).
      { destruct a; cbn [is_horizontal] in Eh.
        - assert (c = 1 \/ c = 2) as [E|E] by lia; rewrite E in *; [exists C; split; [lia|left; reflexivity]|].
          exists (C / 2). split; [|lia]. rewrite (Z.div_mod C 2) at 1 by lia.
          cbn in Eo. lia.
        - assert (c = 1 \/ c = 2) as [E|E] by lia; rewrite E in *; [exists C; split; [lia|left; reflexivity]|].
          exists (C / 2). split; [|lia]. rewrite (Z.div_mod C 2) at 1 by lia.
          cbn in Eo. lia.
        - exists C. unfold c. cbn [by_dim]. lia. }
      destruct Hdiv as (q & E & Hc12).
      rewrite (py_int_int (rnd (inject_Z C / inject_Z c)) q).
      + unfold covers. destruct Hc12 as [E1|E1]; rewrite E1 in *; cbn [Z.eqb Pos.eqb]; repeat split; lia.
      + apply (exact_quot C c q); lia.
  Qed.
End FloatFacts.
