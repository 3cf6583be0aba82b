(** C126: directories of compiled stencils *)
From Coq Require Import ZArith List Bool String DecimalString DecimalNat Permutation Lia.
From Verif Require Import Base PartModel CompileModel CompileProofs CompileProps SaveModel SaveProps StashModel.
Import ListNotations.
Local Open Scope list_scope.
Local Open Scope Z_scope.

(** ** padded numbers are different for different ranks *)
Lemma zeros_uint n u : NilEmpty.uint_of_string (zeros n ++ NilEmpty.string_of_uint u) = Some (Nat.iter n Decimal.D0 u).
Proof. induction n as [|n IH]; [apply NilEmpty.usu|]. cbn [zeros append NilEmpty.uint_of_string]. rewrite IH. reflexivity. Qed.
Lemma iter_value n u : Nat.of_uint (Nat.iter n Decimal.D0 u) = Nat.of_uint u.
Proof. induction n as [|n IH]; [reflexivity|]. exact IH. Qed.
Lemma padded_inj a b : 0 <= a -> 0 <= b -> padded a = padded b -> a = b.
Proof.
  intros A B E. unfold padded, decimal in E. apply (f_equal NilEmpty.uint_of_string) in E. rewrite !zeros_uint in E. injection E as E. apply (f_equal Nat.of_uint) in E.
  rewrite !iter_value in E. rewrite !Unsigned.of_to in E. lia.
Qed.

(** ** building *)
Lemma build_other mpi m minimal n tiles order d x : m <> Run -> (forall r, In r order -> x <> directory_at_import mpi None r) -> build mpi None m minimal (n, n) tiles order d x = d x.
Proof.
  intros M. revert d. unfold build. induction order as [|r order IH]; intros d H; [reflexivity|]. cbn [fold_left]. rewrite IH by (intros; apply H; now right).
  unfold directory. cbn [fst snd]. rewrite Z.eqb_refl. cbn [negb].
  destruct (if minimal then compiling_equivalent m (n, n) r else Some r); cbn [bind]; [|reflexivity]. destruct m; try congruence; destruct (String.eqb x _) eqn:E; try reflexivity; apply String.eqb_eq in E; subst; exfalso; now apply (H r (or_introl eq_refl)).
Qed.
Lemma equivalent_some m (minimal : bool) l r : m <> Run -> exists e, (if minimal then compiling_equivalent m l r else Some r) = Some e.
Proof. intros M. destruct minimal; [|eauto]. unfold compiling_equivalent. destruct m; try congruence; eauto. Qed.
Lemma build_own m minimal n tiles order d r : m <> Run -> NoDup order -> (forall k, In k order -> 0 <= k) -> In r order ->
  build true None m minimal (n, n) tiles order d (".gt_cache_" ++ padded r)%string = Some ((n, n), r).
Proof.
  intros M. revert d. induction order as [|k order IH]; intros d ND P I; [destruct I|]. inversion ND as [|? ? NI ND']; subst. destruct I as [->|I].
  - unfold build. cbn [fold_left]. fold (build true None m minimal (n, n) tiles order). change (fold_left _ order ?d0) with (build true None m minimal (n, n) tiles order d0).
    rewrite build_other; [|exact M|].
    + unfold directory. cbn [fst snd]. rewrite Z.eqb_refl. cbn [negb]. destruct (equivalent_some m minimal (n, n) r M) as [e ->]. cbn [bind]. destruct m; try congruence; cbn [directory_at_import]; now rewrite String.eqb_refl.
    + intros k Ik. cbn [directory_at_import]. intros E. apply append_inj_l in E. apply padded_inj in E; [subst; contradiction| |]; apply P; [now left|now right].
  - unfold build. cbn [fold_left]. change (fold_left _ order ?d0) with (build true None m minimal (n, n) tiles order d0). apply IH; [exact ND'| |exact I]. intros j J. apply P. now right.
Qed.

(** ** the properties *)
Definition all_ranks (tiles n : Z) (order : list Z) : Prop := NoDup order /\ forall r, In r order <-> 0 <= r < tiles * (n * n).
(** different ranks have different directories *)
Theorem C126_separate r r' : 0 <= r -> 0 <= r' -> r <> r' -> directory_at_import true None r <> directory_at_import true None r'.
Proof. intros A B N E. apply N. apply append_inj_l in E. now apply padded_inj. Qed.
Print Assumptions C126_separate.
(** without minimal caching every rank finds what it compiled itself, with the same layout.  missing: a job of one rank (C126_single_refuted), the environment variable (C126_variable_refuted) *)
Theorem C126_own_partial m b tiles n order d r : m <> Run -> 1 <= tiles -> 1 <= n -> tiles * (n * n) <> 1 -> all_ranks tiles n order -> 0 <= r < tiles * (n * n) ->
  found true None false (n, n) tiles (build true None m b (n, n) tiles order d) r = Some ((n, n), r).
Proof.
  intros M T N S [ND A] R. unfold found, directory. cbn [fst snd]. rewrite Z.eqb_refl. cbn [negb bind]. unfold cache_directory, target_rank_str. destruct (_ =? 1) eqn:E; [apply Z.eqb_eq in E; congruence|].
  change (".gt_cache" ++ "_" ++ padded r)%string with (".gt_cache_" ++ padded r)%string.
  assert (B : build true None m b (n, n) tiles order d (".gt_cache_" ++ padded r)%string = Some (n, n, r)) by (apply build_own; [exact M|exact ND|intros k K; now apply A|now apply A]).
  rewrite B. cbn [bind]. exact B.
Qed.
Print Assumptions C126_own_partial.
(** with minimal caching every rank finds the code of a rank at the same edges of its tile, if it was compiled with the layout min(n, 3) x min(n, 3).
    missing: other layouts (C126_layout_refuted) *)
Theorem C126_minimal_partial m b tiles tiles' n order d r : let k := Z.min n 3 in m <> Run -> 1 <= tiles -> 1 <= tiles' -> 1 <= n -> tiles * (n * n) <> 1 -> all_ranks tiles' k order -> 0 <= r < tiles * (n * n) ->
  exists e, found true None true (n, n) tiles (build true None m b (k, k) tiles' order d) r = Some ((k, k), e) /\ edges (k, k) e = edges (n, n) r.
Proof.
  intros k M T T' N S [ND A] R. destruct (C30_equivalent_rank n r N) as (e & E & B & Ed). exists e. split; [|exact Ed].
  unfold found, directory. cbn [fst snd]. rewrite Z.eqb_refl. cbn [negb]. rewrite E. cbn [bind]. unfold cache_directory, target_rank_str. destruct (_ =? 1) eqn:X; [apply Z.eqb_eq in X; congruence|].
  change (".gt_cache" ++ "_" ++ padded e)%string with (".gt_cache_" ++ padded e)%string.
  assert (Bu : build true None m b (k, k) tiles' order d (".gt_cache_" ++ padded e)%string = Some (k, k, e)).
  { apply build_own; [exact M|exact ND|intros j J; now apply A|]. apply A. fold k in B. nia. }
  rewrite Bu. cbn [bind]. exact Bu.
Qed.
Print Assumptions C126_minimal_partial.
(** a job of one rank looks in another directory than the one it compiled in *)
Theorem C126_single_refuted : exists m d, m <> Run /\ all_ranks 1 1 [0] /\ found true None false (1, 1) 1 (build true None m false (1, 1) 1 [0] d) 0 = None.
Proof. exists BuildAndRun, (fun _ => None). split; [discriminate|]. split; [|reflexivity]. split; [repeat constructor; intros []|]. intros r. cbn. lia. Qed.
Print Assumptions C126_single_refuted.
(** a directory given by GT_CACHE_DIR_NAME is used for compiling and not for running *)
Theorem C126_variable_refuted : exists dir m d, m <> Run /\ build true (Some dir) m false (1, 1) 6 [0; 1; 2; 3; 4; 5] d dir <> None
  /\ found true (Some dir) false (1, 1) 6 (build true (Some dir) m false (1, 1) 6 [0; 1; 2; 3; 4; 5] d) 0 = None.
Proof. exists "stencils"%string, Build, (fun _ => None). split; [discriminate|]. split; [discriminate|reflexivity]. Qed.
Print Assumptions C126_variable_refuted.
(** with minimal caching and the same layout of more than 3 x 3 ranks for compiling and running, a rank finds the code of a rank at other edges *)
Theorem C126_layout_refuted : exists n r e, found true None true (n, n) 6 (build true None Build true (n, n) 6 (zrange 0 (6 * (n * n))) (fun _ => None)) r = Some ((n, n), e) /\ edges (n, n) e <> edges (n, n) r.
Proof. exists 4, 5, 4. split; [vm_compute; reflexivity|]. vm_compute. discriminate. Qed.
Print Assumptions C126_layout_refuted.

(** a case: five by five ranks on each tile run with the code of three by three ranks *)
Example C126_case : all_ranks 6 3 (zrange 0 54) /\ found true None true (5, 5) 6 (build true None Build true (3, 3) 6 (zrange 0 54) (fun _ => None)) (25 * 3 + 14) = Some ((3, 3), 5)
  /\ padded 5 = "000005"%string /\ padded 12345 = "012345"%string.
Proof. split; [split; [apply zrange_NoDup|intros r; rewrite in_zrange; lia]|]. split; [vm_compute; reflexivity|]. split; vm_compute; reflexivity. Qed.
