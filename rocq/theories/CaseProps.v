(** C112: which translate tests are run.

    English: A run of the translate tests makes exactly one case of every selected test, rank and call: the tests whose data are in the directory
    (or that --which_modules names), without those of --skip_modules; every call, or the one of --which_savepoint; every rank of the layout, or the one of
    --which_rank.  Parallel tests are run with several processes, the others with one.  The calls of a test follow each other in order, and all processes run the same tests
    in the same order, each on its rank, with the communicator of the namelist's layout. *)
From Coq Require Import Ascii Permutation.
From Verif Require Import Base Dict VerdModel CaseModel CaseProofs.
Local Open Scope nat_scope.

Section Props.
Context (classes : string -> option bool) (order : list string -> list string).
Hypothesis order_any : forall l, Permutation (order l) l.

(** specification *)
(** [w] is a list of names joined by commas, [n] is one of them *)
Definition named (w n : string) : Prop := exists l, join l = w /\ Forall comma_free l /\ In n l.
Definition class_of (n : string) : string := ("Translate" ++ string_of_list_ascii (map (fun c => if Ascii.eqb c "-" then "_"%char else c) (list_ascii_of_string n)))%string.
Definition wanted (o : options) (d : directory) (n : string) : Prop :=
  match which_modules o with Some w => named w n /\ n <> EmptyString | None => In (n ++ "-In.nc")%string (files d) end
  /\ forall w, skip_modules o = Some w -> ~ named w n.
Definition call_wanted (o : options) (d : directory) (n : string) (i : nat) : Prop :=
  exists k, n_calls d (n ++ "-In.nc")%string = Some k /\ match which_savepoint o with Some j => i = j | None => i < k end.
Definition tiles (o : options) (t : nat) : Prop := (topology o = "doubly-periodic"%string /\ t = 1) \/ (topology o = "cubed-sphere"%string /\ t = 6).
Definition rank_wanted (o : options) (layout : nat * nat) (r : nat) : Prop :=
  match which_rank o with Some q => r = q | None => exists t, tiles o t /\ r < t * (fst layout * snd layout) end.

Lemma class_of_name n : class_name n = class_of n.
Proof. unfold class_name, class_of. f_equal. induction n as [|c n IH]; cbn; [reflexivity|]. now rewrite IH. Qed.
Lemma in_somes {X} (l : list (option X)) x : In x (somes l) <-> In (Some x) l.
Proof.
  unfold somes. rewrite in_flat_map. split; [intros ([y|] & I & J); [destruct J as [->|[]]; exact I|destruct J]|]. intros I. exists (Some x). split; [exact I|now left].
Qed.
Definition base_names (o : options) (d : directory) : list string :=
  let names := match which_modules o with
               | None => nodup string_dec (somes (map savepoint_of (files d)))
               | Some w => filter (fun n => negb (n =? "")%string) (nodup string_dec (split w))
               end in
  match skip_modules o with None => names | Some w => filter (fun n => if in_dec string_dec n (split w) then false else true) names end.
Lemma base_names_spec o d n : In n (base_names o d) <-> wanted o d n.
Proof.
  unfold base_names, wanted.
  assert (X : In n (match which_modules o with None => nodup string_dec (somes (map savepoint_of (files d))) | Some w => filter (fun n => negb (n =? "")%string) (nodup string_dec (split w)) end)
              <-> match which_modules o with Some w => named w n /\ n <> EmptyString | None => In (n ++ "-In.nc")%string (files d) end).
  { destruct (which_modules o) as [w|].
    - rewrite filter_In, nodup_In, in_split. unfold named. destruct (String.eqb_spec n ""); cbn [negb]; intuition congruence.
    - rewrite nodup_In, in_somes, in_map_iff. split; [intros (f & E & I); apply savepoint_of_spec in E; now subst|]. intros I. eexists. split; [|exact I]. now apply savepoint_of_spec. }
  destruct (skip_modules o) as [w|].
  - rewrite filter_In, X. split.
    + intros [A B]. split; [exact A|]. intros v [= <-] K. apply in_split in K. destruct in_dec; [discriminate|tauto].
    + intros [A B]. split; [exact A|]. destruct in_dec as [K|K]; [|reflexivity]. apply in_split in K. now destruct (B w eq_refl).
  - rewrite X. split; [intros A; split; [exact A|discriminate]|tauto].
Qed.
Lemma base_names_NoDup o d : NoDup (base_names o d).
Proof.
  unfold base_names. destruct (skip_modules o); [apply NoDup_filter|]; destruct (which_modules o); try apply NoDup_filter; apply NoDup_nodup.
Qed.
Lemma names_inv o d p l : all_savepoint_names order o d p = Some l ->
  NoDup l /\ (forall n, In n l <-> wanted o d n /\ p n = Some true) /\ forall n, wanted o d n -> p n <> None.
Proof.
  unfold all_savepoint_names. fold (base_names o d). intros H. apply choose_inv in H. destruct H as [-> H].
  assert (P := order_any (base_names o d)). split; [|split].
  - apply NoDup_filter. apply (Permutation_NoDup (Permutation_sym P)). apply base_names_NoDup.
  - intros n. rewrite filter_In. split.
    + intros [I J]. apply (Permutation_in _ P), base_names_spec in I. split; [exact I|]. destruct (p n) as [[]|]; congruence.
    + intros [I J]. split; [apply (Permutation_in _ (Permutation_sym P)); now apply base_names_spec|now rewrite J].
  - intros n W. apply H. apply (Permutation_in _ (Permutation_sym P)). now apply base_names_spec.
Qed.
Lemma names_total o d p : (forall n, wanted o d n -> p n <> None) -> exists l, all_savepoint_names order o d p = Some l.
Proof.
  intros H. apply choose_total. intros n I. apply H. fold (base_names o d) in I. apply base_names_spec. apply (Permutation_in _ (order_any _) I).
Qed.
Lemma ranks_inv o layout l : get_ranks o layout = Some l -> NoDup l /\ forall r, In r l <-> rank_wanted o layout r.
Proof.
  unfold get_ranks, rank_wanted, tiles. destruct (which_rank o) as [q|].
  - intros [= <-]. split; [repeat constructor; intros []|]. intros r. cbn. split; [intros [<-|[]]; reflexivity|intros ->; now left].
  - destruct (String.eqb_spec (topology o) "doubly-periodic") as [E|N].
    + intros [= <-]. split; [apply seq_NoDup|]. intros r. rewrite in_seq. split; [intros [_ H]; exists 1; split; [left; auto|lia]|].
      intros (t & [[_ ->]|[F _]] & L); [lia|rewrite E in F; discriminate].
    + destruct (String.eqb_spec (topology o) "cubed-sphere") as [E|N']; [|discriminate].
      intros [= <-]. split; [apply seq_NoDup|]. intros r. rewrite in_seq. split; [intros [_ H]; exists 6; split; [right; auto|lia]|].
      intros (t & [[F _]|[_ ->]] & L); [rewrite E in F; discriminate|lia].
Qed.

(** the cases of a run with one process *)
Theorem C112_sequential o d layout l : sequential_cases classes order o d layout = Some l ->
  NoDup l /\ forall c, In c l <-> rank_wanted o layout (c_rank c) /\ wanted o d (c_name c) /\ classes (class_of (c_name c)) = Some false /\ call_wanted o d (c_name c) (c_call c).
Proof.
  unfold sequential_cases. destruct (sequential_names classes order o d) as [names|] eqn:N; cbn [bind]; [|discriminate].
  destruct (get_ranks o layout) as [ranks|] eqn:R; cbn [bind]; [|discriminate]. intros H.
  destruct (names_inv _ _ _ _ N) as (ND & HN & _). destruct (ranks_inv _ _ _ R) as [RD HR]. destruct (savepoint_cases_inv _ _ _ _ _ _ H) as [HC HD].
  split; [auto|]. intros c. rewrite HC, HR, HN. unfold is_parallel. rewrite class_of_name. unfold call_wanted.
  destruct (classes (class_of (c_name c))) as [[]|]; cbn [bind negb]; intuition congruence.
Qed.
(** of a test on a rank: its calls one after the other *)
Theorem C112_calls_in_order o d layout l r n k : sequential_cases classes order o d layout = Some l ->
  rank_wanted o layout r -> wanted o d n -> classes (class_of n) = Some false -> n_calls d (n ++ "-In.nc")%string = Some k ->
  map c_call (filter (fun c => (c_rank c =? r) && (c_name c =? n)%string) l) = match which_savepoint o with Some i => [i] | None => seq 0 k end.
Proof.
  unfold sequential_cases. destruct (sequential_names classes order o d) as [names|] eqn:N; cbn [bind]; [|discriminate].
  destruct (get_ranks o layout) as [ranks|] eqn:R; cbn [bind]; [|discriminate]. intros H HR HW HC K.
  destruct (names_inv _ _ _ _ N) as (ND & HN & _). destruct (ranks_inv _ _ _ R) as [RD HR'].
  change (fun c => (c_rank c =? r) && (c_name c =? n)%string) with (of_test r n).
  rewrite (savepoint_cases_order classes d names (which_savepoint o) ranks l r n k); [|exact ND|exact RD| |now apply HR'|exact K|exact H].
  - rewrite map_map. cbn [c_call]. apply map_id.
  - apply HN. split; [exact HW|]. unfold is_parallel. rewrite class_of_name, HC. reflexivity.
Qed.
(** when cases can be made.  missing: data without a test class, see C112_no_class_refuted *)
Theorem C112_total_partial o d layout : (which_rank o = None -> exists t, tiles o t) ->
  (forall n, wanted o d n -> classes (class_of n) <> None /\ n_calls d (n ++ "-In.nc")%string <> None) -> (forall r, rank_wanted o layout r -> has_grid d r = true) ->
  exists l, sequential_cases classes order o d layout = Some l.
Proof.
  intros T W G. unfold sequential_cases. destruct (names_total o d (fun n => do b <- is_parallel classes n; Some (negb b))) as [names N].
  { intros n H. destruct (W n H) as [X _]. unfold is_parallel. rewrite class_of_name. destruct (classes (class_of n)); [discriminate|congruence]. }
  unfold sequential_names. rewrite N. cbn [bind]. destruct (names_inv _ _ _ _ N) as (_ & HN & _).
  assert (R : exists ranks, get_ranks o layout = Some ranks).
  { unfold get_ranks. destruct (which_rank o); [eauto|]. destruct (T eq_refl) as (t & [[-> _]|[-> _]]); cbn; eauto. }
  destruct R as [ranks R]. rewrite R. cbn [bind]. destruct (ranks_inv _ _ _ R) as [_ HR].
  apply savepoint_cases_total.
  - intros n I. apply HN in I. destruct I as [I _]. rewrite class_of_name. auto.
  - intros r I. apply G. now apply HR.
Qed.
(** the cases of one of several processes *)
Theorem C112_parallel o d layout size rank l : parallel_cases classes order o d layout size rank = Some l ->
  NoDup l /\ forall c, In c l <-> c_rank c = rank /\ wanted o d (c_name c) /\ classes (class_of (c_name c)) = Some true /\ call_wanted o d (c_name c) (c_call c).
Proof.
  unfold parallel_cases. destruct (get_communicator size layout (topology o)) as [cm|]; cbn [bind]; [|discriminate].
  destruct (parallel_names classes order o d) as [names|] eqn:N; cbn [bind]; [|discriminate]. intros H.
  destruct (names_inv _ _ _ _ N) as (ND & HN & _). destruct (savepoint_cases_inv _ _ _ _ _ _ H) as [HC HD].
  split; [apply HD; [exact ND|repeat constructor; intros []]|]. intros c. rewrite HC, HN. unfold is_parallel. rewrite class_of_name. unfold call_wanted. cbn [In]. intuition.
Qed.
End Props.
Print Assumptions C112_sequential.
Print Assumptions C112_calls_in_order.
Print Assumptions C112_total_partial.
Print Assumptions C112_parallel.

(** all processes run the same tests in the same order, however each goes through its sets *)
Theorem C112_processes classes order order' o d layout size rank rank' l : (forall l, Permutation (order l) l) -> (forall l, Permutation (order' l) l) -> has_grid d rank' = true ->
  parallel_cases classes order o d layout size rank = Some l ->
  parallel_cases classes order' o d layout size rank' = Some (map (fun c => Case rank' (c_name c) (c_call c)) l).
Proof.
  intros P P' G. unfold parallel_cases. destruct (get_communicator size layout (topology o)) as [cm|]; cbn [bind]; [|discriminate].
  unfold parallel_names, all_savepoint_names. fold (base_names o d).
  destruct (choose (is_parallel classes) (order (base_names o d))) as [names|] eqn:N; cbn [bind]; [|discriminate].
  destruct (choose_perm (is_parallel classes) _ (order' (base_names o d)) (Permutation_trans (P _) (Permutation_sym (P' _))) _ N) as (names' & N' & Q).
  rewrite N'. cbn [bind savepoint_cases]. rewrite G. destruct (has_grid d rank); cbn [bind]; [|discriminate].
  rewrite <- (sorted_same names names' Q). destruct (cases_of_names classes d (which_savepoint o) rank (sorted names)) as [h|] eqn:H; cbn [bind]; [|discriminate].
  rewrite (cases_rank _ _ _ _ rank' _ _ H). cbn [bind]. rewrite !app_nil_r. intros [= <-]. reflexivity.
Qed.
Print Assumptions C112_processes.

(** the communicator of the collection and the one of the test: the same for square layouts *)
Theorem C112_communicators_partial n size : 1 < size ->
  (size = 6 * (n * n) -> get_communicator size (n, n) "cubed-sphere" = communicator size)
  /\ (size = n * n -> size mod 6 <> 0 -> get_communicator size (n, n) "doubly-periodic" = communicator size).
Proof.
  intros L. unfold get_communicator, communicator. split.
  - intros ->. apply Nat.ltb_lt in L. rewrite L. cbn [andb String.eqb Ascii.eqb Bool.eqb fst snd]. rewrite Nat.eqb_refl.
    rewrite (Nat.mul_comm 6 (n * n)), Nat.mod_mul, Nat.div_mul by lia. cbn [Nat.eqb negb]. rewrite Nat.sqrt_square, Nat.mul_comm, Nat.eqb_refl. reflexivity.
  - intros -> M. destruct (Nat.eqb_spec ((n * n) mod 6) 0); [congruence|]. cbn [negb]. rewrite Nat.sqrt_square. now rewrite andb_false_r.
Qed.
Print Assumptions C112_communicators_partial.

(** findings *)
Local Open Scope string_scope.
(** 24 processes for tiles of 1 x 4: the test gets a communicator for tiles of 2 x 2, without an error *)
Theorem C112_communicators_refuted : exists size layout, get_communicator size layout "cubed-sphere" = Some (Cube layout) /\ fst layout * snd layout * 6 = size
  /\ communicator size = Some (Cube (2, 2)) /\ layout <> (2, 2).
Proof. exists 24, (1, 4). repeat split; try reflexivity. discriminate. Qed.
Print Assumptions C112_communicators_refuted.
Definition some_classes (c : string) : option bool := if (c =? "TranslateC_SW")%string then Some false else if (c =? "TranslateHalo")%string then Some true else None.
Definition dir (fs : list string) : directory := Directory fs (fun f => if in_dec string_dec f fs then Some 2 else None) (fun r => (r <? 6)%nat).
Definition plain_options : options := Options None None None None "cubed-sphere".
(** one file of a savepoint without a test class: none of the tests is run *)
Theorem C112_no_class_refuted : exists fs n, wanted plain_options (dir fs) n /\ some_classes (class_of n) = Some false
  /\ sequential_cases some_classes (fun l => l) plain_options (dir fs) (1, 1) = None
  /\ exists l, sequential_cases some_classes (fun l => l) plain_options (dir [n ++ "-In.nc"]) (1, 1) = Some l /\ l <> [].
Proof.
  exists ["C_SW-In.nc"; "Other-In.nc"], "C_SW". split; [split; [now left|discriminate]|]. split; [reflexivity|]. split; [reflexivity|]. eexists. split; [vm_compute; reflexivity|discriminate].
Qed.
Print Assumptions C112_no_class_refuted.
(** --which_rank does not restrict a parallel run *)
Theorem C112_which_rank_refuted : exists o, which_rank o = Some 0
  /\ parallel_cases some_classes (fun l => l) o (dir ["Halo-In.nc"]) (1, 1) 6 3 = Some [Case 3 "Halo" 0; Case 3 "Halo" 1].
Proof. exists (Options None None (Some 0) None "cubed-sphere"). split; reflexivity. Qed.
Print Assumptions C112_which_rank_refuted.
(** --which_savepoint beyond the calls of a test makes a case of a call there is no data for *)
Theorem C112_which_savepoint_refuted : exists o d c l, n_calls d (c_name c ++ "-In.nc") = Some 2 /\ c_call c = 7
  /\ sequential_cases some_classes (fun l => l) o d (1, 1) = Some l /\ In c l.
Proof.
  exists (Options None None (Some 0) (Some 7) "cubed-sphere"), (dir ["C_SW-In.nc"]), (Case 0 "C_SW" 7). eexists. split; [reflexivity|]. split; [reflexivity|]. split; [vm_compute; reflexivity|now left].
Qed.
Print Assumptions C112_which_savepoint_refuted.

(** cases: names in other orders, a dash, names skipped and repeated *)
Example C112_case : sequential_cases (fun c => if in_dec string_dec c ["TranslateC_SW"; "TranslateD_SW"; "TranslateAx"] then Some false else Some true) (@rev string)
   (Options (Some "D_SW,C-SW,,D_SW,Ax,Halo") (Some "Ax,Zz") None None "doubly-periodic") (Directory [] (fun f => if (f =? "D_SW-In.nc")%string then Some 2 else Some 1) (fun _ => true)) (1, 2)
  = Some [Case 0 "C-SW" 0; Case 0 "D_SW" 0; Case 0 "D_SW" 1; Case 1 "C-SW" 0; Case 1 "D_SW" 0; Case 1 "D_SW" 1].
Proof. vm_compute. reflexivity. Qed.
Example C112_case_order : (forall l : list string, Permutation (rev l) l) /\ exists l, parallel_cases some_classes (@rev string) plain_options (dir ["Halo-In.nc"; "C_SW-In.nc"; "x.nc"]) (1, 1) 6 2 = Some l /\ l <> [].
Proof. split; [intros l; apply Permutation_sym, Permutation_rev|]. eexists. split; [vm_compute; reflexivity|discriminate]. Qed.
Example C112_case_total : (forall n, wanted plain_options (dir ["C_SW-In.nc"; "notes.txt"]) n -> some_classes (class_of n) <> None /\ n_calls (dir ["C_SW-In.nc"; "notes.txt"]) (n ++ "-In.nc") <> None)
  /\ (forall r, rank_wanted plain_options (1, 1) r -> has_grid (dir ["C_SW-In.nc"; "notes.txt"]) r = true).
Proof.
  split.
  - intros n [W _]. cbn [which_modules plain_options] in W. destruct W as [W|[W|[]]].
    + apply (f_equal savepoint_of) in W. rewrite (proj2 (savepoint_of_spec _ n) eq_refl) in W. vm_compute in W. injection W as <-. split; discriminate.
    + apply (f_equal savepoint_of) in W. rewrite (proj2 (savepoint_of_spec _ n) eq_refl) in W. vm_compute in W. discriminate.
  - intros r (t & [[E _]|[_ ->]] & L); [discriminate|]. cbn in L |- *. apply Nat.leb_le. lia.
Qed.
