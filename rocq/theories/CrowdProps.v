(** C133: which layouts a periodic tile can be exchanged on. *)
From Coq Require Import ZArith List Bool Arith Lia.
From Verif Require Import Base PartModel PartProofs PartProps AskModel AskProps CrowdModel.
Import ListNotations.
Open Scope Z_scope.

Lemma others_are ny nx t rank : 0 < ny -> 0 < nx -> 0 <= rank < ny * nx -> others (ny, nx) (t * (ny * nx) + rank) = map (Z.add (t * (ny * nx))) (surrounding ny nx rank).
Proof.
  intros Hy Hx Hr. assert (R : 0 <= rank / nx < ny) by (split; [apply Z.div_pos; lia|apply Z.div_lt_upper_bound; lia]). assert (C : 0 <= rank mod nx < nx) by (apply Z.mod_pos_bound; lia).
  assert (E : rank = rank / nx * nx + rank mod nx) by (rewrite (Z.mul_comm (rank / nx)); apply Z.div_mod; lia).
  unfold others, surrounding, BOUNDARY_TYPES, around. replace (t * (ny * nx) + rank) with (t * (ny * nx) + (rank / nx * nx + rank mod nx)) by lia. clear E. cbn [map fst snd]. rewrite !tile_boundary_enc by assumption. cbn [b_to tile_to fst snd]. unfold at_offset.
  rewrite !Z.add_0_r. rewrite (Z.mod_small (rank / nx) ny), (Z.mod_small (rank mod nx) nx) by assumption. reflexivity.
Qed.

Lemma others_here ny nx rank : 0 < ny -> 0 < nx -> 0 <= rank < ny * nx -> others (ny, nx) rank = surrounding ny nx rank.
Proof. intros Hy Hx Hr. pose proof (others_are ny nx 0 rank Hy Hx Hr) as E. cbn [Z.mul Z.add] in E. rewrite E. apply map_id. Qed.

(** Every message of a halo update goes to and comes from one of the eight ranks around, which are on the same tile; several tiles on one communicator do not see each other. *)
Theorem C133_others : forall ny nx t rank, 0 < ny -> 0 < nx -> 0 <= rank < ny * nx ->
  others (ny, nx) (t * (ny * nx) + rank) = map (Z.add (t * (ny * nx))) (surrounding ny nx rank) /\ Forall (fun r => 0 <= r < ny * nx) (surrounding ny nx rank).
Proof.
  intros ny nx t rank Hy Hx Hr. split; [now apply others_are|]. unfold surrounding. apply Forall_forall. intros r I. apply in_map_iff in I as ([dj di] & <- & _). unfold at_offset. cbn [fst snd].
  assert (A : 0 <= (rank / nx + dj) mod ny < ny) by (apply Z.mod_pos_bound; lia). assert (B : 0 <= (rank mod nx + di) mod nx < nx) by (apply Z.mod_pos_bound; lia). nia.
Qed.
Print Assumptions C133_others.

Lemma nodup_types : NoDup BOUNDARY_TYPES.
Proof. unfold BOUNDARY_TYPES. repeat (constructor; [cbn; intuition discriminate|]). constructor. Qed.
Lemma others_nodup ny nx rank : 0 < ny -> 0 < nx -> 0 <= rank < ny * nx -> (NoDup (others (ny, nx) rank) <-> 3 <= ny /\ 3 <= nx).
Proof.
  intros Hy Hx Hr. split.
  - intros U. destruct (Z_le_dec 3 ny) as [A|A]; [destruct (Z_le_dec 3 nx) as [B|B]; [auto|]|]; exfalso;
      (destruct (C04_tile_small_layout_ambiguous ny nx Hy Hx ltac:(lia) rank Hr) as (b1 & b2 & N & E));
      (apply N; clear N; unfold others in U; assert (I : forall b, In b BOUNDARY_TYPES) by (intros []; cbn; intuition));
      destruct (in_split _ _ (I b1)) as (l1 & l2 & S); rewrite S in U; rewrite map_app in U; cbn [map] in U; apply NoDup_remove_2 in U; rewrite <- map_app in U;
      (assert (J : In b2 (l1 ++ b1 :: l2)) by (rewrite <- S; apply I); apply in_app_or in J as [J|[J|J]]; [|exact J|]); exfalso; apply U; rewrite E; apply in_map_iff; exists b2; (split; [reflexivity|]); apply in_or_app; auto.
  - intros [A B]. unfold others. assert (D := fun b1 b2 => proj2 (C04_tile_neighbours_distinct ny nx rank b1 b2 A B Hr)). generalize nodup_types. generalize BOUNDARY_TYPES. intros l. induction l as [|b l IH]; intros U; cbn; [constructor|].
    inversion U as [|? ? N U2]; subst. constructor; [|now apply IH]. intros I. apply in_map_iff in I as (c & E & I). apply (D c b); [intros ->; contradiction|exact E].
Qed.

(** On a layout of at least 3 by 3 ranks a halo update posts one receive from and one send to each of the eight ranks around, which are different, each message with all quantities in order. *)
Theorem C133_exchanged : forall ny nx rank q n, 3 <= ny -> 3 <= nx -> 0 <= rank < ny * nx -> q <> [] -> n <> 0%nat -> uniform q ->
  NoDup (surrounding ny nx rank) /\ ~ In rank (surrounding ny nx rank) /\
  tile_start_halo_update (ny, nx) rank q n = (surrounding ny nx rank, inl (map (fun b => (b, map snd q)) (surrounding ny nx rank))).
Proof.
  intros ny nx rank q n A B Hr Nq Nn Q. assert (E : others (ny, nx) rank = surrounding ny nx rank) by (apply others_here; lia).
  assert (U : NoDup (others (ny, nx) rank)) by (apply others_nodup; lia). split; [now rewrite <- E|]. split.
  - rewrite <- E. unfold others. intros I. apply in_map_iff in I as (b & F & _). exact (proj1 (C04_tile_neighbours_distinct ny nx rank b b A B Hr) F).
  - unfold tile_start_halo_update, guarded. cbn [fst snd]. destruct (Z.ltb_spec ny 3); [lia|]. destruct (Z.ltb_spec nx 3); [lia|]. cbn [orb]. rewrite <- E. apply C132_scalar; auto.
Qed.
Print Assumptions C133_exchanged.
Theorem C133_exchanged_vector : forall ny nx rank x y n, 3 <= ny -> 3 <= nx -> 0 <= rank < ny * nx -> x <> [] -> length x = length y -> n <> 0%nat -> uniform (x ++ y) ->
  tile_start_vector_halo_update (ny, nx) rank x y n =
    (surrounding ny nx rank, inl (map (fun b => (b, flat_map (fun xy => [snd (fst xy); snd (snd xy)]) (combine x y))) (surrounding ny nx rank))).
Proof.
  intros ny nx rank x y n A B Hr Nx L Nn Q. assert (E : others (ny, nx) rank = surrounding ny nx rank) by (apply others_here; lia).
  unfold tile_start_vector_halo_update, guarded. cbn [fst snd]. destruct (Z.ltb_spec ny 3); [lia|]. destruct (Z.ltb_spec nx 3); [lia|]. cbn [orb]. rewrite <- E. apply C132_vector; auto. apply others_nodup; lia.
Qed.
Print Assumptions C133_exchanged_vector.
(** the synchronization of the interfaces takes place *)
Theorem C133_synchronized : forall ny nx sync, 3 <= ny -> 3 <= nx -> tile_start_synchronize (ny, nx) sync = sync.
Proof. intros ny nx sync A B. unfold tile_start_synchronize, guarded. cbn [fst snd]. destruct (Z.ltb_spec ny 3); [lia|]. destruct (Z.ltb_spec nx 3); [lia|]. reflexivity. Qed.
Print Assumptions C133_synchronized.

(** On a smaller layout two directions have the same neighbour, and all three operations are refused before any message, whatever they are given. *)
Theorem C133_refused : forall ny nx rank, 0 < ny -> 0 < nx -> ny < 3 \/ nx < 3 -> 0 <= rank < ny * nx -> ~ NoDup (surrounding ny nx rank) /\
  (forall q n, tile_start_halo_update (ny, nx) rank q n = ([], inr NotImplementedError)) /\
  (forall x y n, tile_start_vector_halo_update (ny, nx) rank x y n = ([], inr NotImplementedError)) /\
  (forall sync, tile_start_synchronize (ny, nx) sync = ([], inr NotImplementedError)).
Proof.
  intros ny nx rank Hy Hx S Hr. assert (G : (ny <? 3) || (nx <? 3) = true) by (apply orb_true_iff; rewrite !Z.ltb_lt; exact S). split.
  - assert (E : others (ny, nx) rank = surrounding ny nx rank) by (apply others_here; lia).
    rewrite <- E. rewrite others_nodup by assumption. lia.
  - unfold tile_start_halo_update, tile_start_vector_halo_update, tile_start_synchronize, guarded. cbn [fst snd]. rewrite G. auto.
Qed.
Print Assumptions C133_refused.

Lemma crowded {A} B (l : list A) : l <> [] -> ~ NoDup B -> exists r v, In (r, v) (by_rank B l) /\ (length l < length v)%nat.
Proof.
  intros N U. assert (D : exists r, (2 <= count_occ Z.eq_dec B r)%nat).
  { clear l N. induction B as [|b B IH]; [exfalso; apply U; constructor|]. destruct (in_dec Z.eq_dec b B) as [I|I].
    - exists b. apply (count_occ_In Z.eq_dec) in I. rewrite count_occ_cons_eq by reflexivity. lia.
    - destruct IH as [r R]; [intros V; apply U; now constructor|]. exists r. cbn. destruct (Z.eq_dec b r); lia. }
  destruct D as [r R]. exists r. pose proof (outer_look l B r []) as L. fold (by_rank B l) in L. cbn in L. remember (count_occ Z.eq_dec B r) as k eqn:K. clear K.
  assert (M : (2 * length l <= length (concat (repeat l k)))%nat).
  { destruct k as [|[|k]]; [lia|lia|]. cbn. rewrite !app_length. lia. }
  assert (P : (0 < length l)%nat) by (destruct l; [congruence|cbn; lia]). rewrite <- L in M. exists (look (by_rank B l) r). split; [|lia]. assert (Q : (0 < length (look (by_rank B l) r))%nat) by lia. clear L M.
  induction (by_rank B l) as [|[q v] d IH]; cbn in *; [lia|]. destruct (Z.eqb_spec q r) as [->|]; [now left|right; now apply IH].
Qed.
Lemma first_some {A} (f : A -> option refusal) l x e : In x l -> f x = Some e -> (forall y, In y l -> f y = None \/ f y = Some e) -> first_refusal f l = Some e.
Proof.
  intros I F H. induction l as [|y l IH]; [destruct I|]. cbn. destruct (H y (or_introl eq_refl)) as [Y|Y]; rewrite Y; [|reflexivity]. destruct I as [->|I]; [congruence|]. apply IH; [exact I|intros z J; apply H; now right].
Qed.

(** An updater made from specifications is made on such a layout too, but cannot be used: each start with as many quantities as specifications raises before a message is sent. *)
Theorem C133_updater : forall ny nx rank s u, 0 < ny -> 0 < nx -> ny < 3 \/ nx < 3 -> 0 <= rank < ny * nx -> tile_get_scalar (ny, nx) rank s = inl u ->
  snd (start u (length s) None) = inr RuntimeError.
Proof.
  intros ny nx rank s u Hy Hx S Hr G. unfold tile_get_scalar, get_scalar in G. destruct s as [|a s]; [discriminate|]. destruct (Nat.eqb (points a) 0); [discriminate|]. destruct (first_refusal _ _); [discriminate|]. injection G as <-.
  destruct (crowded (others (ny, nx) rank) (a :: s) ltac:(discriminate)) as (r & v & I & L); [rewrite others_nodup by assumption; lia|]. unfold start. cbn [snd].
  rewrite (first_some _ _ (r, v) RuntimeError I); [reflexivity| |].
  - unfold pack_scalar. cbn [snd]. destruct (Nat.eqb_spec (length (a :: s)) (length v)); [lia|reflexivity].
  - intros y _. unfold pack_scalar. destruct (Nat.eqb _ _); auto.
Qed.
Print Assumptions C133_updater.
Theorem C133_updater_vector : forall ny nx rank sx sy u, 0 < ny -> 0 < nx -> ny < 3 \/ nx < 3 -> 0 <= rank < ny * nx -> sx <> [] -> length sx = length sy -> tile_get_vector (ny, nx) rank sx sy = inl u ->
  snd (start u (length sx) (Some (length sy))) = inr RuntimeError.
Proof.
  intros ny nx rank sx sy u Hy Hx S Hr N Ls G. unfold tile_get_vector, get_vector in G. destruct sx as [|a sx]; [congruence|]. destruct sy as [|b sy]; [discriminate|].
  set (l := combine (a :: sx) (b :: sy)) in *. assert (Ll : length l = length (a :: sx)) by (unfold l; rewrite combine_length; lia). assert (Nl : l <> []) by discriminate. clearbody l.
  match type of G with match ?z with Some _ => _ | None => _ end = _ => destruct z; [discriminate|] end. destruct (first_refusal _ _); [discriminate|]. injection G as <-.
  destruct (crowded (others (ny, nx) rank) l Nl) as (r & v & I & L); [rewrite others_nodup by assumption; lia|]. unfold start. cbn [snd].
  rewrite (first_some _ _ (r, v) RuntimeError I); [reflexivity| |].
  - unfold pack_vector. cbn [snd]. rewrite <- Ls. destruct (Nat.eqb_spec (length (a :: sx)) (length v)); [lia|reflexivity].
  - intros y _. unfold pack_vector. rewrite <- Ls. destruct (Nat.eqb _ (length (snd y))); cbn [negb andb]; [rewrite Nat.eqb_refl; auto|auto].
Qed.
Print Assumptions C133_updater_vector.

Example C133_case : tile_start_halo_update (3, 4) 3 [(64, 1); (64, 2)]%nat 3 =
  ([7; 11; 2; 0; 6; 4; 10; 8], inl [(7, [1; 2]%nat); (11, [1; 2]%nat); (2, [1; 2]%nat); (0, [1; 2]%nat); (6, [1; 2]%nat); (4, [1; 2]%nat); (10, [1; 2]%nat); (8, [1; 2]%nat)]) /\ uniform [(64, 1); (64, 2)]%nat.
Proof. split; [vm_compute; reflexivity|]. intros x y [<-|[<-|[]]] [<-|[<-|[]]]; reflexivity. Qed.
Example C133_updater_case : exists u, tile_get_scalar (1, 1) 0 [Spec 3 64 1] = inl u /\ start u 1 None = ([0], inr RuntimeError).
Proof. eexists. split; vm_compute; reflexivity. Qed.

(** Refused before a message is sent, but not before receives are posted; and with eight times the quantities the updater of a single rank does exchange, each side with itself. *)
Theorem C133_posted_refuted : exists ny nx rank s u posted, 0 < ny /\ 0 < nx /\ 0 <= rank < ny * nx /\ tile_get_scalar (ny, nx) rank s = inl u /\ start u (length s) None = (posted, inr RuntimeError) /\ posted <> [].
Proof. exists 2, 3, 0, [Spec 3 64 1]. eexists _, _. split; [lia|]. split; [lia|]. split; [lia|]. split; [vm_compute; reflexivity|]. split; [vm_compute; reflexivity|discriminate]. Qed.
Print Assumptions C133_posted_refuted.
Theorem C133_eight_refuted : exists s u nx m, tile_get_scalar (1, 1) 0 s = inl u /\ nx <> length s /\ start u nx None = ([0], inl m).
Proof. exists [Spec 3 64 1]. eexists. exists 8%nat. eexists. split; [vm_compute; reflexivity|]. split; [cbn; lia|]. vm_compute. reflexivity. Qed.
Print Assumptions C133_eight_refuted.
