(** C110: what is read back from the NetCDF files made of the serialized data of the Fortran model is, for each savepoint, rank, call and
    variable, what was serialized (with 0 for 1e40). *)
From Coq Require Import Decimal DecimalString DecimalNat.
From Verif Require Import Base Dict ConvModel ConvProofs.
Local Open Scope nat_scope.

(** the savepoints of the dynamical core and the tracers (175-190) *)
Definition of_dynamics (savepoint : string) : Prop := In savepoint ["FVDynamics-In"; "FVDynamics-Out"; "Driver-In"; "Driver-Out"]%string.
Definition of_tracers (name : string) : Prop := In name ["qvapor"; "qliquid"; "qice"; "qrain"; "qsnow"; "qgraupel"; "qo3mr"; "qsgs_tke"]%string.
Lemma dynamics_spec s : dynamics s = true <-> of_dynamics s.
Proof. unfold dynamics. rewrite existsb_exists. split; [intros (y & I & E); apply String.eqb_eq in E; now subst|intros I; exists s; split; [exact I|apply String.eqb_refl]]. Qed.
Lemma tracer_spec s : tracer s = true <-> of_tracers s.
Proof. unfold tracer. rewrite existsb_exists. split; [intros (y & I & E); apply String.eqb_eq in E; now subst|intros I; exists s; split; [exact I|apply String.eqb_refl]]. Qed.

Section Props.
Context {V : Type} (nan zero : V) (huge : V -> bool).
Local Notation arr := (arr V).
Local Notation convert := (convert nan zero huge).
Local Notation written := (written zero huge).

Lemma seq_at n c : c < n -> nth_error (seq 0 n) c = Some c.
Proof. intros H. rewrite (nth_error_nth' _ 0); [|rewrite seq_length; exact H]. now rewrite seq_nth. Qed.

Lemma rank_variable_all merge nx ny b (f : nat -> dict arr) n x s : merge = false \/ n = 1 -> 0 < n -> s <> [] ->
  (forall c, c < n -> exists a, get (f c) x = Some a /\ shape a = s) ->
  exists e, rank_variable nan zero huge merge nx ny b (map f (seq 0 n)) x = Some e /\ length e = n /\
    (forall c w, c < n -> get (f c) x = Some w -> exists a, nth_error e c = Some a /\ read_serialized_data zero huge w = Some a) /\
    Forall (fun a => shape a = if size s =? 1 then tl s else s) e.
Proof.
  intros M N Hs H. unfold rank_variable.
  assert (nth_error (map f (seq 0 n)) 0 = Some (f 0)) as ->. { rewrite nth_error_map, seq_at; auto. }
  cbn [bind]. destruct (H 0 N) as (a0 & -> & _).
  destruct (every_total (fun d : dict arr => do a <- get d x; read_serialized_data zero huge a) (map f (seq 0 n))) as (e & E).
  { intros d I. apply in_map_iff in I. destruct I as (c & <- & I). apply in_seq in I. destruct (H c) as (a & -> & S0); [lia|]. cbn [bind].
    destruct (read_total zero huge a) as (r & -> & _); [congruence|eauto]. }
  rewrite E. cbn [bind]. pose proof (every_length _ _ E) as L. rewrite !map_length, seq_length in L.
  exists e. split.
  - destruct merge; [|reflexivity]. destruct M as [M| ->]; [discriminate|]. destruct e as [|a [|a' e]]; try discriminate. reflexivity.
  - split; [exact L|]. split.
    + intros c w Hc Hw. destruct (every_map_nth _ _ _ c (f c) E) as (a & Ha & R); [rewrite nth_error_map, seq_at; auto|]. rewrite Hw in R. eauto.
    + apply Forall_forall. intros a I. apply In_nth_error in I. destruct I as (c & Hc).
      destruct (every_map_nth_r _ _ _ _ _ E Hc) as (d & Hd & R). rewrite nth_error_map in Hd. assert (c < n) as Hcn by (rewrite <- L; apply nth_error_Some; congruence).
      rewrite (seq_at n c Hcn) in Hd. injection Hd as <-. destruct (H c Hcn) as (w & Hw & Sw). rewrite Hw in R. cbn [bind] in R.
      destruct (read_total zero huge w) as (a' & R' & Sh); [congruence|]. rewrite R in R'. injection R' as <-. now rewrite Sh, Sw.
Qed.
Lemma rank_list_total merge nx ny names ranks : (forall calls b x, In calls ranks -> In x names -> exists e, rank_variable nan zero huge merge nx ny b calls x = Some e) ->
  forall b, exists l, rank_list nan zero huge merge nx ny names b ranks = Some l.
Proof.
  induction ranks as [|c ranks IH]; intros H b; [exists []; reflexivity|]. cbn [rank_list].
  destruct (every_dict_total (rank_variable nan zero huge merge nx ny b c) names) as (d & ->); [intros x I; apply H; [now left|exact I]|]. cbn [bind].
  destruct (IH (fun calls b x I => H calls b x (or_intror I)) (Some d)) as (l & ->). cbn [bind]. eauto.
Qed.

Lemma round_trip merge dn nml sp files (data : nat -> nat -> dict arr) n (sh : string -> list nat) :
  merge = false \/ n = 1 -> 0 < n -> 0 < total_ranks nml ->
  (** every rank has n savepoints of this name, all with the variables of the first one, in the same shapes *)
  (forall r, r < total_ranks nml -> files (serializer_name dn r) = Some (map (data r) (seq 0 n))) ->
  (forall r c x, r < total_ranks nml -> c < n -> In x (keys (data 0 0)) -> exists a, get (data r c) x = Some a /\ shape a = sh x) ->
  (forall x, In x (keys (data 0 0)) -> sh x <> []) ->
  (exists x, In x (keys (data 0 0)) /\ x <> "rank"%string) ->
  ~ of_dynamics sp \/ (forall x, In x (keys (data 0 0)) -> ~ of_tracers x) ->
  exists d, convert merge dn nml sp files = Some d /\
    (forall r c, r < total_ranks nml -> c < n -> exists l, load d r c = Some l /\ NoDup (keys l) /\
       (forall x, In x (keys l) <-> In x (keys (data 0 0)) /\ x <> "rank"%string) /\
       forall x w a, get (data r c) x = Some w -> get l x = Some a -> written w a) /\
    (forall r c, total_ranks nml <= r \/ n <= c -> load d r c = None).
Proof.
  intros M N T HF HD Hs (x0 & I0 & N0) TR.
  set (t := total_ranks nml) in *. set (names := nodup string_dec (keys (data 0 0))).
  set (ranks := map (fun r => map (data r) (seq 0 n)) (seq 0 t)).
  assert (every (map (fun r => files (serializer_name dn r)) (seq 0 t)) = Some ranks) as ER.
  { apply every_F2. unfold ranks. assert (forall l, (forall r, In r l -> r < t) -> Forall2 (fun o a => o = Some a) (map (fun r => files (serializer_name dn r)) l) (map (fun r => map (data r) (seq 0 n)) l)) as A.
    { induction l as [|r l IH]; intros H; cbn; constructor; [apply HF, H; now left|apply IH; intros q I; apply H; now right]. }
    apply A. intros r I. apply in_seq in I. lia. }
  assert (forall calls b x, In calls ranks -> In x names -> exists e, rank_variable nan zero huge merge (tile_nx nml) (tile_ny nml) b calls x = Some e) as TV.
  { intros calls b x I J. apply in_map_iff in I. destruct I as (r & <- & I). apply in_seq in I. apply nodup_In in J.
    destruct (rank_variable_all merge (tile_nx nml) (tile_ny nml) b (data r) n x (sh x)) as (e & E & _); auto; [|eauto]. intros c Hc. apply HD; auto; lia. }
  destruct (rank_list_total _ _ _ names ranks TV None) as (l & L).
  destruct (rank_list_inv _ _ _ _ _ _ _ _ _ _ L) as (LL & LI).
  assert (length ranks = t) as LR by (unfold ranks; now rewrite map_length, seq_length).
  assert (forall r x, r < t -> In x names -> exists d e, nth_error l r = Some d /\ get d x = Some e /\ length e = n /\
    (forall c w, c < n -> get (data r c) x = Some w -> exists a, nth_error e c = Some a /\ read_serialized_data zero huge w = Some a) /\
    Forall (fun a => shape a = if size (sh x) =? 1 then tl (sh x) else sh x) e) as EN.
  { intros r x Hr J. destruct (LI r (map (data r) (seq 0 n))) as (d & Hd & _ & G).
    { unfold ranks. rewrite nth_error_map, seq_at; auto. }
    specialize (G x). destruct (in_dec string_dec x names) as [_|K]; [|contradiction]. apply nodup_In in J.
    destruct (rank_variable_all merge (tile_nx nml) (tile_ny nml) match r with 0 => None | S q => nth_error l q end (data r) n x (sh x)) as (e & E & A); auto.
    exists d, e. rewrite G, E. repeat split; try tauto. }
  assert (forall d x, In d l -> In x names -> exists e, get d x = Some e /\ length e = n /\ Forall (fun a => shape a = if size (sh x) =? 1 then tl (sh x) else sh x) e) as EI.
  { intros d x I J. apply In_nth_error in I. destruct I as (r & Hr). assert (r < t) as Hrt by (rewrite <- LR, <- LL; apply nth_error_Some; congruence).
    destruct (EN r x Hrt J) as (d' & e & Hd & He & Le & _ & Fe). assert (d' = d) by congruence. subst. eauto. }
  assert (forall x, In x names -> exists s v, variable nan sp n l x = Some v /\ get_data nan s n l x = Some v /\ s = if size (sh x) =? 1 then tl (sh x) else sh x) as VA.
  { intros x J. set (s := if size (sh x) =? 1 then tl (sh x) else sh x). destruct (EN 0 x T J) as (d & e & Hd & He & Le & _ & Fe).
    destruct e as [|a e]; [cbn in Le; lia|]. assert (shape a = s) as Sa by (now inversion Fe).
    destruct (get_data_total nan s n l x) as (v & G). { intros d' I. apply (EI d' x I J). }
    exists s, v. split; [|auto]. unfold variable. rewrite Hd. cbn [bind]. rewrite He. cbn [bind nth_error]. rewrite Sa.
    rewrite collapses_same; [|intros d' I; destruct (EI d' x I J) as ([|a' e'] & He' & Le' & Fe'); [cbn in Le'; lia|]; exists (a' :: e'), a'; repeat split; auto; now inversion Fe']. cbn [bind].
    rewrite G. cbn [bind]. destruct (dynamics sp) eqn:DY; [|reflexivity]. destruct (tracer x) eqn:TX; [|reflexivity].
    apply dynamics_spec in DY. apply tracer_spec in TX. apply nodup_In in J. destruct TR as [TR|TR]; [contradiction|]. now apply TR in TX. }
  assert (nth_error (rev ranks) 0 = Some (map (data (t - 1)) (seq 0 n))) as LA.
  { unfold ranks. rewrite <- map_rev. rewrite nth_error_map. destruct t as [|t']; [lia|]. rewrite seq_S, rev_app_distr. cbn. now rewrite Nat.sub_0_r. }
  assert (convert merge dn nml sp files = do vars <- every (map (fun name => do v <- variable nan sp n l name; Some (name, v)) (filter (fun name => negb (name =? "rank")%string) names));
     match vars with [] => Some (Dataset n 0 []) | (_, v) :: _ => if forallb (fun x => v_ranks (snd x) =? v_ranks v) vars then Some (Dataset n (v_ranks v) vars) else None end) as CE.
  { unfold ConvModel.convert. rewrite (HF 0 T). cbn [bind]. assert (nth_error (map (data 0) (seq 0 n)) 0 = Some (data 0 0)) as -> by (rewrite nth_error_map, seq_at; auto). cbn [bind].
    fold t names. rewrite ER. cbn [bind]. rewrite L. cbn [bind]. rewrite LA. cbn [bind].
    replace (if merge then 1 else length (map (data (t - 1)) (seq 0 n))) with n; [reflexivity|]. rewrite map_length, seq_length. destruct merge; [|reflexivity]. destruct M; congruence. }
  destruct (every_dict_total (variable nan sp n l) (filter (fun name => negb (name =? "rank")%string) names)) as (vars & EV).
  { intros x I. apply filter_In in I. destruct (VA x (proj1 I)) as (s & v & -> & _). eauto. }
  rewrite EV in CE. cbn [bind] in CE. apply every_dict in EV. destruct EV as (KV & GV).
  assert (forall x, In x (filter (fun name => negb (name =? "rank")%string) names) <-> In x (keys (data 0 0)) /\ x <> "rank"%string) as FI.
  { intros x. rewrite filter_In. unfold names. rewrite nodup_In. split; intros (A & B); (split; [exact A|]); destruct (String.eqb_spec x "rank"); cbn in *; congruence. }
  assert (forall x v, In (x, v) vars -> v_ranks v = t) as VR.
  { intros x v I. assert (exists v', get vars x = Some v') as (v' & Gv). { rewrite GV. destruct (in_dec _ _ _) as [J|J]; [apply filter_In in J; destruct (VA x (proj1 J)) as (s & w & E & _); eauto|].
      exfalso. apply J. rewrite <- KV. now apply (in_map fst) in I. }
    assert (v = v') as ->.
    { assert (NoDup (keys vars)) as ND by (rewrite KV; apply NoDup_filter, NoDup_nodup). clear -I Gv ND. induction vars as [|[k w] vars IH]; cbn in *; [contradiction|]. inversion ND as [|? ? NI ND']; subst.
      destruct I as [[= -> ->]|I].
      - rewrite String.eqb_refl in Gv. congruence.
      - destruct (String.eqb_spec x k) as [->|]; [exfalso; apply NI; now apply (in_map fst) in I|auto]. }
    rewrite GV in Gv. destruct (in_dec _ _ _) as [J|J]; [|discriminate]. apply filter_In in J. destruct (VA x (proj1 J)) as (s & w & E & G & _).
    assert (w = v') by congruence. subst. apply get_data_inv in G. destruct G as (-> & _). congruence. }
  assert (exists d, convert merge dn nml sp files = Some d /\ ds_savepoints d = n /\ ds_ranks d = t /\ ds_vars d = vars /\ vars <> []) as (d & CD & DN & DR & DV & NV).
  { rewrite CE. destruct vars as [|[y v] vars'] eqn:QV.
    - exfalso. assert (In x0 (keys (@nil (string * var V)))) by (rewrite KV; apply FI; auto). contradiction.
    - assert (forallb (fun x => v_ranks (snd x) =? v_ranks v) ((y, v) :: vars') = true) as ->.
      { apply forallb_forall. intros [z u] I. cbn [snd]. rewrite (VR z u I), (VR y v (or_introl eq_refl)). apply Nat.eqb_refl. }
      eexists. split; [reflexivity|]. cbn. repeat split; auto; [|discriminate]. apply (VR y v). now left. }
  exists d. split; [exact CD|]. split.
  - intros r c Hr Hc. unfold load. rewrite DV, DR, DN. destruct vars as [|p vars'] eqn:QV; [congruence|]. rewrite <- QV in *.
    rewrite (proj2 (Nat.ltb_lt _ _) Hr), (proj2 (Nat.ltb_lt _ _) Hc). cbn [andb]. eexists. split; [reflexivity|].
    assert (keys (map (fun x => (fst x, Arr (v_shape (snd x)) (v_elt (snd x) c r))) vars) = keys vars) as KM by (unfold keys; rewrite map_map; now apply map_ext).
    rewrite KM, KV. split; [apply NoDup_filter, NoDup_nodup|]. split; [exact FI|].
    intros x w a Hw Ha. rewrite (get_map (fun v => Arr (v_shape v) (v_elt v c r))) in Ha. rewrite GV in Ha.
    destruct (in_dec _ _ _) as [J|J]; [|discriminate]. apply filter_In in J. destruct J as (J & _).
    destruct (VA x J) as (s & v & E & G & Es). rewrite E in Ha. cbn in Ha. injection Ha as <-.
    destruct (EN r x Hr J) as (dd & e & Hd & He & Le & Re & Fe). destruct (Re c w Hc Hw) as (b & Hb & Rb).
    destruct (get_data_inv _ _ _ _ _ _ G) as (_ & Vs & GD). destruct (GD r dd e c b Hd He Hc Hb) as (f & Af & Ff).
    apply (written_same zero huge w b); [now apply read_written|]. assert (shape b = s) as Sb. { rewrite Forall_forall in Fe. rewrite Fe, Es; [reflexivity|]. now apply nth_error_In in Hb. }
    subst s. rewrite <- Sb in Af. destruct (assign_same b) as (g & Ag & Fg). rewrite Ag in Af. injection Af as <-. split; cbn; [congruence|]. intros i I. now rewrite Ff, Fg.
  - intros r c H. unfold load. rewrite DR, DN. destruct (ds_vars d); [reflexivity|]. destruct (Nat.ltb_spec r t); [|reflexivity]. destruct (Nat.ltb_spec c n); [|reflexivity]. lia.
Qed.

(** the ranks a namelist asks for: six tiles for the cubed-sphere grid types 0, 1, 2 and 3, else one; each of as many ranks as the layout has *)
Definition tiles_of (nml : namelist) : nat := match grid_type nml with 0 | 1 | 2 | 3 => 6 | _ => 1 end.
Definition ranks_of (nml : namelist) : nat := let '(px, py) := layout nml in tiles_of nml * (px * py).
Lemma ranks_total nml : total_ranks nml = ranks_of nml.
Proof. unfold total_ranks, ranks_of, tiles_of. destruct (layout nml) as [px py]. cbn [fst snd]. destruct (grid_type nml) as [|[|[|[|g]]]]; cbn [Nat.leb]; lia. Qed.
Theorem C110_round_trip_partial merge dn nml sp files (data : nat -> nat -> dict arr) n (sh : string -> list nat) :
  merge = false \/ n = 1 -> 0 < n -> 0 < ranks_of nml ->
  (** every rank has n savepoints of this name, all with the variables of the first one, in the same shapes *)
  (forall r, r < ranks_of nml -> files (serializer_name dn r) = Some (map (data r) (seq 0 n))) ->
  (forall r c x, r < ranks_of nml -> c < n -> In x (keys (data 0 0)) -> exists a, get (data r c) x = Some a /\ shape a = sh x) ->
  (forall x, In x (keys (data 0 0)) -> sh x <> []) ->
  (exists x, In x (keys (data 0 0)) /\ x <> "rank"%string) ->
  ~ of_dynamics sp \/ (forall x, In x (keys (data 0 0)) -> ~ of_tracers x) ->
  exists d, convert merge dn nml sp files = Some d /\
    (forall r c, r < ranks_of nml -> c < n -> exists l, load d r c = Some l /\ load_with d r c true = Some l /\ NoDup (keys l) /\
       (forall x, In x (keys l) <-> In x (keys (data 0 0)) /\ x <> "rank"%string) /\
       forall x w a, get (data r c) x = Some w -> get l x = Some a -> written w a) /\
    (forall r c, ranks_of nml <= r \/ n <= c -> load d r c = None) /\
    (** without use_dynamic_i_call it is the first call, whatever the call asked for *)
    (forall r c, r < ranks_of nml -> load_with d r c false = load d r 0).
Proof.
  rewrite <- ranks_total. intros M N T HF HD Hs HX TR. destruct (round_trip merge dn nml sp files data n sh M N T HF HD Hs HX TR) as (d & E & L & O).
  exists d. split; [exact E|]. split; [|split; [exact O|reflexivity]]. intros r c R C. destruct (L r c R C) as (l & Hl & H). exists l. split; [exact Hl|]. split; [exact Hl|exact H].
Qed.

(** ** conversions that were made *)
Lemma collapses_false s x (l : list (dict (list arr))) : collapses s x l = Some false ->
  forall d, In d l -> exists e a, get d x = Some e /\ nth_error e 0 = Some a /\ shape a = s.
Proof.
  induction l as [|d l IH]; cbn [collapses]; [intros _ d []|].
  destruct (get d x) as [e|] eqn:G; cbn [bind]; [|discriminate]. destruct (nth_error e 0) as [a|] eqn:A; cbn [bind]; [|discriminate].
  destruct (list_eq_dec Nat.eq_dec (shape a) s) as [E|]; [|destruct (length s =? 1); discriminate].
  intros H d' [<-|I]; [exists e, a; auto|now apply IH].
Qed.
Lemma variable_plain sp n (l : list (dict (list arr))) x v : ~ of_dynamics sp -> variable nan sp n l x = Some v -> v_ranks v = length l ->
  exists s, get_data nan s n l x = Some v /\ forall d, In d l -> exists e a, get d x = Some e /\ nth_error e 0 = Some a /\ shape a = s.
Proof.
  intros ND. unfold variable. destruct (nth_error l 0) as [d|] eqn:D; cbn [bind]; [|discriminate]. destruct (get d x) as [e|] eqn:G; cbn [bind]; [|discriminate].
  destruct (nth_error e 0) as [a|] eqn:A; cbn [bind]; [|discriminate]. destruct (collapses (shape a) x l) as [c|] eqn:C; cbn [bind]; [|discriminate].
  destruct (dynamics sp) eqn:DY; [apply dynamics_spec in DY; contradiction|]. destruct c.
  - intros E R. exfalso. unfold get_data_collapse_all_ranks in E. destruct (every _); cbn [bind] in E; [|discriminate]. destruct (put_ranks _ _ _ _ _); cbn [bind] in E; [|discriminate].
    injection E as <-. cbn in R. destruct l as [|d' [|]]; try discriminate. cbn in D. injection D as ->. cbn [collapses] in C. rewrite G in C. cbn [bind] in C. rewrite A in C. cbn [bind] in C.
    destruct (list_eq_dec _ _ _); [discriminate|congruence].
  - intros E _. exists (shape a). split; [exact E|]. now apply collapses_false.
Qed.
(** what is kept of a rank that has the variable, without merging *)
Lemma rank_variable_inv merge nx ny b calls x e first w : rank_variable nan zero huge merge nx ny b calls x = Some e -> nth_error calls 0 = Some first -> get first x = Some w ->
  exists l, every (map (fun d : dict arr => do a <- get d x; read_serialized_data zero huge a) calls) = Some l /\ (if merge then merge_blocks nan nx ny l else Some l) = Some e.
Proof.
  unfold rank_variable. intros E F H. rewrite F in E. cbn [bind] in E. rewrite H in E. destruct (every _) as [l|]; cbn [bind] in E; [|discriminate]. eauto.
Qed.
(** a variable of the file *)
Lemma loaded merge dn nml sp files d r c l x a : convert merge dn nml sp files = Some d -> load d r c = Some l -> get l x = Some a ->
  exists (kept : list (dict (list arr))) v, get (ds_vars d) x = Some v /\ v_ranks v = ds_ranks d /\ variable nan sp (ds_savepoints d) kept x = Some v /\ length kept = total_ranks nml /\
    shape a = v_shape v /\ (forall i, elt a i = v_elt v c r i) /\ r < ds_ranks d /\ c < ds_savepoints d /\ (merge = true -> ds_savepoints d = 1) /\
    forall q calls, q < total_ranks nml -> files (serializer_name dn q) = Some calls -> exists k, nth_error kept q = Some k /\
      get k x = rank_variable nan zero huge merge (tile_nx nml) (tile_ny nml) (match q with 0 => None | S p => nth_error kept p end) calls x.
Proof.
  intros C L A. destruct (convert_inv _ _ _ _ _ _ _ _ _ C) as (f0 & first & ranks & kept & last & F0 & Fi & LR & FR & RL & La & DS & KV & GV & VR).
  destruct (load_inv _ _ _ _ L) as (Hr & Hc & NE & KL & GL). rewrite GL in A. destruct (get (ds_vars d) x) as [v|] eqn:Gx; [|discriminate]. cbn in A. injection A as <-.
  destruct (GV x v Gx) as (NR & I & Hv). exists kept, v. destruct (rank_list_inv _ _ _ _ _ _ _ _ _ _ RL) as (LK & LI).
  split; [reflexivity|]. split; [now apply (VR x)|]. split; [exact Hv|]. split; [congruence|]. split; [reflexivity|]. split; [reflexivity|]. split; [exact Hr|]. split; [exact Hc|].
  split; [intros ->; exact DS|]. intros q calls Hq Hf. destruct (FR q Hq) as (f & Hf' & Hn). rewrite Hf in Hf'. injection Hf' as <-.
  destruct (LI q calls Hn) as (k & Hk & _ & Gk). exists k. split; [exact Hk|]. rewrite Gk. destruct (in_dec _ _ _) as [_|J]; [reflexivity|]. exfalso. apply J. now apply nodup_In.
Qed.

(** each variable is by itself: others may differ between ranks and calls *)
Theorem C110_loaded_partial dn nml sp files d r c l x a calls first s w : ~ of_dynamics sp ->
  convert false dn nml sp files = Some d -> ds_ranks d = total_ranks nml ->
  load d r c = Some l -> get l x = Some a ->
  files (serializer_name dn r) = Some calls -> nth_error calls 0 = Some first -> In x (keys first) -> nth_error calls c = Some s -> get s x = Some w ->
  (exists b, written w b /\ shape b = shape a) ->
  written w a.
Proof.
  intros ND C T L A F Fi K Hs Hw (b & Wb & Sb).
  destruct (loaded _ _ _ _ _ _ _ _ _ _ _ C L A) as (kept & v & Gv & VR & HV & LK & SA & EA & Hr & Hc & _ & HK).
  destruct (HK r calls) as (k & Hk & Gk); [lia|exact F|].
  destruct (variable_plain _ _ _ _ _ ND HV) as (s0 & GD & _); [lia|].
  destruct (get_data_inv _ _ _ _ _ _ GD) as (_ & Vs & GE). destruct (get_data_calls _ _ _ _ _ _ _ _ GD Hk) as (e & He & Le).
  rewrite He in Gk. symmetry in Gk. assert (exists w0, get first x = Some w0) as (w0 & H0) by now apply get_some.
  destruct (rank_variable_inv _ _ _ _ _ _ _ _ _ Gk Fi H0) as (e' & EV & [= ->]).
  destruct (every_map_nth _ _ _ _ _ EV Hs) as (y & Hy & R). rewrite Hw in R. cbn [bind] in R.
  destruct (GE r k e c y Hk He Hc Hy) as (f & Af & Ff). apply (written_same zero huge w y); [now apply read_written|].
  assert (shape y = s0) as Sy.
  { rewrite <- Vs, <- SA, <- Sb. apply read_written in R. destruct R as [(N & S1 & _)|(N & s1 & S1 & S2 & _)], Wb as [(N' & S1' & _)|(N' & s1' & S1' & S2' & _)]; congruence. }
  subst s0. rewrite <- Sy in Af. destruct (assign_same y) as (g & Ag & Fg). rewrite Ag in Af. injection Af as <-. split; [congruence|]. intros i I. now rewrite EA, Ff, Fg.
Qed.

(** whatever its shape, the variable a call wrote is there, stretched along axes that it has not or along which it has one point; anything else is not converted *)
Lemma fits_sizes a : forall s, fits a s = true -> Forall2 (fun x y => x = y \/ x = 1) a s.
Proof.
  induction a as [|x a IH]; intros [|y s]; cbn; try discriminate; [constructor|]. intros E. apply andb_prop in E. destruct E as [E1 E2]. constructor; [|auto].
  apply orb_prop in E1. destruct E1 as [E1|E1]; apply Nat.eqb_eq in E1; auto.
Qed.
Lemma clip_pairs a : forall i, clip a i = map (fun p => if fst p =? 1 then 0 else snd p) (combine a i).
Proof. induction a as [|x a IH]; intros [|k i]; cbn; try reflexivity. now rewrite IH. Qed.
Theorem C110_stretched dn nml sp files d r c l x a calls first s w : ~ of_dynamics sp ->
  convert false dn nml sp files = Some d -> ds_ranks d = total_ranks nml ->
  load d r c = Some l -> get l x = Some a ->
  files (serializer_name dn r) = Some calls -> nth_error calls 0 = Some first -> In x (keys first) -> nth_error calls c = Some s -> get s x = Some w ->
  exists b before along, written w b /\ shape a = before ++ along /\ Forall2 (fun n m => n = m \/ n = 1) (shape b) along /\
    forall i j, length i = length before -> elt a (i ++ j) = elt b (map (fun p => if fst p =? 1 then 0 else snd p) (combine (shape b) j)).
Proof.
  intros ND C T L A F Fi K Hs Hw.
  destruct (loaded _ _ _ _ _ _ _ _ _ _ _ C L A) as (kept & v & Gv & VR & HV & LK & SA & EA & Hr & Hc & _ & HK).
  destruct (HK r calls) as (k & Hk & Gk); [lia|exact F|].
  destruct (variable_plain _ _ _ _ _ ND HV) as (s0 & GD & _); [lia|].
  destruct (get_data_inv _ _ _ _ _ _ GD) as (_ & Vs & GE). destruct (get_data_calls _ _ _ _ _ _ _ _ GD Hk) as (e & He & Le).
  rewrite He in Gk. symmetry in Gk. assert (exists w0, get first x = Some w0) as (w0 & H0) by now apply get_some.
  destruct (rank_variable_inv _ _ _ _ _ _ _ _ _ Gk Fi H0) as (e' & EV & [= ->]).
  destruct (every_map_nth _ _ _ _ _ EV Hs) as (y & Hy & R). rewrite Hw in R. cbn [bind] in R.
  destruct (GE r k e c y Hk He Hc Hy) as (f & Af & Ff). rewrite Vs in SA. unfold assign in Af.
  destruct (Nat.ltb_spec (length s0) (length (shape y))) as [|Ge]; [discriminate|].
  destruct (fits _ _) eqn:Fit; [|discriminate]. injection Af as <-.
  exists y, (firstn (length s0 - length (shape y)) s0), (skipn (length s0 - length (shape y)) s0).
  split; [now apply read_written|]. split; [now rewrite firstn_skipn|]. split; [now apply fits_sizes|].
  intros i j Li. rewrite firstn_length_le in Li by lia. rewrite EA, Ff, clip_pairs, <- Li, skipn_app, skipn_all, Nat.sub_diag. reflexivity.
Qed.

(** a variable that a rank does not have is NaN there *)
Theorem C110_missing_partial merge dn nml sp files d r l l0 x a a0 calls first : ~ of_dynamics sp ->
  convert merge dn nml sp files = Some d -> ds_ranks d = total_ranks nml ->
  load d r 0 = Some l -> get l x = Some a -> load d 0 0 = Some l0 -> get l0 x = Some a0 ->
  files (serializer_name dn r) = Some calls -> nth_error calls 0 = Some first -> ~ In x (keys first) ->
  shape a = shape a0 /\ forall i, within i (shape a) -> elt a i = nan.
Proof.
  intros ND C T L A L0 A0 F Fi K.
  destruct (loaded _ _ _ _ _ _ _ _ _ _ _ C L A) as (kept & v & Gv & VR & HV & LK & SA & EA & Hr & Hc & _ & HK).
  destruct (load_inv _ _ _ _ L0) as (_ & _ & _ & _ & GL0). rewrite GL0, Gv in A0. injection A0 as <-. split; [exact SA|].
  destruct (HK r calls) as (k & Hk & Gk); [lia|exact F|].
  destruct (variable_plain _ _ _ _ _ ND HV) as (s0 & GD & HS); [lia|].
  destruct (get_data_inv _ _ _ _ _ _ GD) as (_ & Vs & GE).
  destruct (HS k (nth_error_In _ _ Hk)) as (e & y & He & Hy & Sy). destruct (GE r k e 0 y Hk He Hc Hy) as (f & Af & Ff).
  rewrite He in Gk. symmetry in Gk. unfold rank_variable in Gk. rewrite Fi in Gk. cbn [bind] in Gk. rewrite (proj2 (get_none first x) K) in Gk.
  destruct (match r with 0 => None | S p => nth_error kept p end) as [p|]; cbn [bind] in Gk; [|discriminate]. destruct (get p x) as [e1|]; cbn [bind] in Gk; [|discriminate].
  destruct (nth_error e1 0) as [y1|]; cbn [bind] in Gk; [|discriminate]. destruct (shape y1) as [|m sm] eqn:S1; [discriminate|]. injection Gk as <-. cbn in Hy. injection Hy as <-.
  destruct (assign_same (Arr (m :: sm) (fun _ => nan))) as (g & Ag & Fg). cbn [shape] in *. rewrite <- Sy, Ag in Af. injection Af as <-.
  intros i I. rewrite EA, Ff, Fg; [reflexivity|]. congruence.
Qed.

(** ** tracers *)
Lemma kept_at dn nml files r c x (kept : list (dict (list arr))) calls first s w w0 k :
  (get k x = rank_variable nan zero huge false (tile_nx nml) (tile_ny nml) (match r with 0 => None | S p => nth_error kept p end) calls x) ->
  (exists e, get k x = Some e) -> files (serializer_name dn r) = Some calls -> nth_error calls 0 = Some first -> get first x = Some w0 -> nth_error calls c = Some s -> get s x = Some w ->
  exists e y, get k x = Some e /\ nth_error e c = Some y /\ read_serialized_data zero huge w = Some y.
Proof.
  intros G (e & He) F Fi H0 Hs Hw. rewrite He in G. symmetry in G. destruct (rank_variable_inv _ _ _ _ _ _ _ _ _ G Fi H0) as (e' & EV & [= ->]).
  destruct (every_map_nth _ _ _ _ _ EV Hs) as (y & Hy & R). rewrite Hw in R. eauto.
Qed.
(** The tracers of these savepoints come without the three outermost points on each side. *)
Theorem C110_tracer_partial dn nml sp files d r c l x a calls0 first0 w0 calls first s w wf : of_dynamics sp -> of_tracers x ->
  convert false dn nml sp files = Some d -> load d r c = Some l -> get l x = Some a ->
  files (serializer_name dn 0) = Some calls0 -> nth_error calls0 0 = Some first0 -> get first0 x = Some w0 ->
  files (serializer_name dn r) = Some calls -> nth_error calls 0 = Some first -> get first x = Some wf -> nth_error calls c = Some s -> get s x = Some w ->
  shape w = shape w0 -> size (shape w) <> 1 ->
  exists p q z s', shape w = p :: q :: z :: s' /\ shape a = (p - 6) :: (q - 6) :: z :: s' /\
    forall i j k ix, i < p - 6 -> j < q - 6 -> k < z -> within ix s' ->
      elt a (i :: j :: k :: ix) = let v := elt w ((i + 3) :: (j + 3) :: k :: ix) in if huge v then zero else v.
Proof.
  intros DY TX C L A F0 Fi0 G0 F Fi Gf Hs Hw SW N.
  destruct (loaded _ _ _ _ _ _ _ _ _ _ _ C L A) as (kept & v & Gv & VR & HV & LK & SA & EA & Hr & Hc & _ & HK).
  unfold variable in HV. destruct (nth_error kept 0) as [d0|] eqn:D0; cbn [bind] in HV; [|discriminate]. destruct (get d0 x) as [e0|] eqn:E0; cbn [bind] in HV; [|discriminate].
  destruct (nth_error e0 0) as [y0|] eqn:Y0; cbn [bind] in HV; [|discriminate]. destruct (collapses (shape y0) x kept) as [cc|]; cbn [bind] in HV; [|discriminate].
  apply dynamics_spec in DY. apply tracer_spec in TX. rewrite DY, TX in HV. destruct (get_data nan (shape y0) (ds_savepoints d) kept x) as [u|] eqn:GD; cbn [bind] in HV; [|discriminate].
  destruct (get_data_inv _ _ _ _ _ _ GD) as (UR & Us & GE).
  assert (0 < total_ranks nml) as T. { rewrite <- LK. destruct kept; [discriminate|cbn; lia]. }
  assert (v_ranks v = v_ranks u) as VU. { unfold trim in HV. destruct (v_shape u) as [|? [|? [|? ?]]]; try discriminate. injection HV as <-. reflexivity. }
  destruct (HK 0 calls0 T F0) as (k0 & Hk0 & Gk0). assert (k0 = d0) by congruence. subst k0.
  destruct (kept_at dn nml files 0 0 x kept calls0 first0 first0 w0 w0 d0 Gk0) as (e0' & y0' & E0' & Y0' & R0); eauto.
  assert (e0' = e0) by congruence. subst e0'. assert (y0' = y0) by congruence. subst y0'.
  destruct (HK r calls) as (k & Hk & Gk); [lia|exact F|]. destruct (get_data_calls _ _ _ _ _ _ _ _ GD Hk) as (e & He & _).
  destruct (kept_at dn nml files r c x kept calls first s w wf k Gk) as (e' & y & E' & Hy & R); eauto. assert (e' = e) by congruence. subst e'.
  destruct (GE r k e c y Hk He Hc Hy) as (f & Af & Ff).
  pose proof (read_shape _ _ _ _ _ _ R R0 SW) as SY. rewrite <- SY in Af. destruct (assign_same y) as (g & Ag & Fg). rewrite Ag in Af. injection Af as <-.
  apply read_written in R. destruct R as [(_ & S1 & W)|(N' & _)]; [|contradiction].
  unfold trim in HV. rewrite Us, <- SY, S1 in HV. destruct (shape w) as [|p [|q [|z s']]] eqn:SH; try discriminate. injection HV as <-. cbn in SA, EA.
  exists p, q, z, s'. split; [reflexivity|]. split; [exact SA|]. intros i j kk ix Hi Hj Hk' Hix. rewrite EA, Ff.
  assert (within (i + 3 :: j + 3 :: kk :: ix) (p :: q :: z :: s')) as Wi by (repeat constructor; try lia; exact Hix). rewrite Fg by (rewrite S1; exact Wi). now rewrite W.
Qed.

(** ** blocks *)
Lemma same_shapes_spec s (l : list arr) : same_shapes s l = true <-> Forall (fun a => shape a = s) l.
Proof.
  induction l as [|a l IH]; cbn; [split; auto|]. destruct (list_eq_dec _ _ _) as [E|E]; [rewrite IH; split; [now constructor|now inversion 1]|]. split; [discriminate|]. inversion 1; congruence.
Qed.
Lemma tile_ok n m l0 : 0 < l0 -> m = n * l0 -> m / l0 = n.
Proof. intros H ->. apply Nat.div_mul. lia. Qed.
(** what a merged variable is kept as *)
Lemma merged_kept dn nml sp files d r l x a calls : ~ of_dynamics sp -> convert true dn nml sp files = Some d -> ds_ranks d = total_ranks nml ->
  load d r 0 = Some l -> get l x = Some a -> files (serializer_name dn r) = Some calls ->
  exists b y e, rank_variable nan zero huge true (tile_nx nml) (tile_ny nml) b calls x = Some (y :: e) /\ same y a.
Proof.
  intros ND C T L A F.
  destruct (loaded _ _ _ _ _ _ _ _ _ _ _ C L A) as (kept & v & Gv & VR & HV & LK & SA & EA & Hr & Hc & _ & HK).
  destruct (HK r calls) as (k & Hk & Gk); [lia|exact F|].
  destruct (variable_plain _ _ _ _ _ ND HV) as (s0 & GD & HS); [lia|].
  destruct (get_data_inv _ _ _ _ _ _ GD) as (_ & Vs & GE). destruct (HS k (nth_error_In _ _ Hk)) as (e & y & He & Hy & Sy).
  destruct (GE r k e 0 y Hk He Hc Hy) as (f & Af & Ff). rewrite <- Sy in Af. destruct (assign_same y) as (g & Ag & Fg). rewrite Ag in Af. injection Af as <-.
  destruct e as [|y' e]; [discriminate|]. cbn in Hy. injection Hy as ->. rewrite He in Gk. exists (match r with 0 => None | S p => nth_error kept p end), y, e. split; [now symmetry|].
  split; [congruence|]. intros i I. now rewrite EA, Ff, Fg.
Qed.
Lemma blocks_read calls x m s : calls <> [] -> m :: s <> [] -> (forall sv, In sv calls -> exists w, get sv x = Some w /\ shape w = m :: s) -> size (m :: s) <> 1 ->
  forall nx ny b e, rank_variable nan zero huge true nx ny b calls x = Some e ->
  exists bl, merge_blocks nan nx ny bl = Some e /\ length bl = length calls /\ Forall (fun a => shape a = m :: s) bl /\
    forall n sv w, nth_error calls n = Some sv -> get sv x = Some w -> exists y, nth_error bl n = Some y /\ written w y /\ shape y = m :: s.
Proof.
  intros NE _ H N nx ny b e E. destruct calls as [|c0 calls'] eqn:EC; [congruence|]. destruct (H c0 (or_introl eq_refl)) as (w0 & H0 & _).
  destruct (rank_variable_inv _ _ _ _ _ _ _ c0 w0 E eq_refl H0) as (bl & EV & M). rewrite <- EC in *. exists bl. split; [exact M|].
  pose proof (every_length _ _ EV) as LB. rewrite map_length in LB. split; [exact LB|].
  assert (forall n sv w, nth_error calls n = Some sv -> get sv x = Some w -> exists y, nth_error bl n = Some y /\ written w y /\ shape y = m :: s) as G.
  { intros n sv w Hn Hw. destruct (every_map_nth _ _ _ _ _ EV Hn) as (y & Hy & R). rewrite Hw in R. cbn [bind] in R. exists y. split; [exact Hy|]. apply read_written in R. split; [exact R|].
    destruct (H sv (nth_error_In _ _ Hn)) as (w' & Hw' & S'). assert (w' = w) by congruence. subst. destruct R as [(_ & S1 & _)|(N1 & _)]; congruence. }
  split; [|exact G]. apply Forall_forall. intros y I. apply In_nth_error in I. destruct I as (n & Hn). destruct (every_map_nth_r _ _ _ _ _ EV Hn) as (sv & Hsv & _).
  destruct (H sv (nth_error_In _ _ Hsv)) as (w & Hw & _). destruct (G n sv w Hsv Hw) as (y' & Hy' & _ & Sy). congruence.
Qed.
(** The blocks of a rank of nx * ny columns, in the order of the savepoints, are put together. *)
Theorem C110_merge_partial dn nml sp files d r l x a calls nx ny m s : ~ of_dynamics sp -> convert true dn nml sp files = Some d -> ds_ranks d = total_ranks nml ->
  load d r 0 = Some l -> get l x = Some a -> files (serializer_name dn r) = Some calls ->
  0 < fst (layout nml) -> 0 < snd (layout nml) -> npx nml - 1 = nx * fst (layout nml) -> npy nml - 1 = ny * snd (layout nml) ->
  1 < length calls -> (forall sv, In sv calls -> exists w, get sv x = Some w /\ shape w = m :: s) -> size (m :: s) <> 1 ->
  nx * ny = length calls * m ->
  shape a = nx :: ny :: s /\
  forall i j ix b t sv w, i < nx -> j < ny -> within ix s -> t < m -> i * ny + j = b * m + t -> nth_error calls b = Some sv -> get sv x = Some w ->
    elt a (i :: j :: ix) = let v := elt w (t :: ix) in if huge v then zero else v.
Proof.
  intros ND C T L A F P0 P1 HX HY N HC SZ HN. destruct (merged_kept _ _ _ _ _ _ _ _ _ _ ND C T L A F) as (b0 & y & e & RV & SM).
  unfold tile_nx, tile_ny in RV. rewrite (tile_ok _ _ _ P0 HX), (tile_ok _ _ _ P1 HY) in RV.
  destruct (blocks_read calls x m s) with (3 := HC) (nx := nx) (ny := ny) (b := b0) (e := y :: e) as (bl & M & LB & FB & GB); auto; [destruct calls; [cbn in N; lia|discriminate]|discriminate|].
  unfold merge_blocks in M. destruct bl as [|a0 [|a1 bl']] eqn:EB; [cbn in LB; lia|cbn in LB; lia|]. rewrite <- EB in *.
  assert (shape a0 = m :: s) as S0. { rewrite Forall_forall in FB. apply FB. subst. now left. }
  rewrite S0 in M. rewrite (proj2 (same_shapes_spec (m :: s) bl) FB) in M. rewrite LB, <- HN, Nat.eqb_refl in M. injection M as <- <-.
  destruct SM as (SS & SE). cbn [shape] in SS, SE. split; [now symmetry|].
  intros i j ix b t sv w Hi Hj Hix Ht HE Hb Hw. rewrite <- SE by (repeat constructor; auto). cbn [elt].
  assert ((i * ny + j) / m = b) as ->. { rewrite HE, Nat.div_add_l, (Nat.div_small t m) by lia. lia. }
  assert ((i * ny + j) mod m = t) as ->. { rewrite HE, Nat.add_comm, Nat.mod_add, Nat.mod_small by lia. reflexivity. }
  destruct (GB b sv w Hb Hw) as (y' & -> & W & Sy). destruct W as [(_ & S1 & W)|(N1 & s1 & S1 & S2 & _)].
  - apply W. rewrite <- S1, Sy. now constructor.
  - exfalso. apply SZ. destruct (HC sv (nth_error_In _ _ Hb)) as (w' & Hw' & Sw'). congruence.
Qed.
(** Otherwise the first block is taken to be the same for all. *)
Theorem C110_merge_first_partial dn nml sp files d r l x a calls nx ny m s sv w : ~ of_dynamics sp -> convert true dn nml sp files = Some d -> ds_ranks d = total_ranks nml ->
  load d r 0 = Some l -> get l x = Some a -> files (serializer_name dn r) = Some calls ->
  0 < fst (layout nml) -> 0 < snd (layout nml) -> npx nml - 1 = nx * fst (layout nml) -> npy nml - 1 = ny * snd (layout nml) ->
  1 < length calls -> (forall sv, In sv calls -> exists w, get sv x = Some w /\ shape w = m :: s) -> size (m :: s) <> 1 ->
  nx * ny <> length calls * m -> nth_error calls 0 = Some sv -> get sv x = Some w -> written w a.
Proof.
  intros ND C T L A F P0 P1 HX HY N HC SZ HN Hsv Hw. destruct (merged_kept _ _ _ _ _ _ _ _ _ _ ND C T L A F) as (b0 & y & e & RV & SM).
  unfold tile_nx, tile_ny in RV. rewrite (tile_ok _ _ _ P0 HX), (tile_ok _ _ _ P1 HY) in RV.
  destruct (blocks_read calls x m s) with (3 := HC) (nx := nx) (ny := ny) (b := b0) (e := y :: e) as (bl & M & LB & FB & GB); auto; [destruct calls; [cbn in N; lia|discriminate]|discriminate|].
  unfold merge_blocks in M. destruct bl as [|a0 [|a1 bl']] eqn:EB; [cbn in LB; lia|cbn in LB; lia|]. rewrite <- EB in *.
  assert (shape a0 = m :: s) as S0. { rewrite Forall_forall in FB. apply FB. subst. now left. }
  rewrite S0 in M. rewrite (proj2 (same_shapes_spec (m :: s) bl) FB) in M. rewrite LB in M. destruct (Nat.eqb_spec (nx * ny) (length calls * m)); [contradiction|]. injection M as <- <-.
  destruct (GB 0 sv w Hsv Hw) as (y' & Hy' & W & _). subst bl. cbn in Hy'. injection Hy' as <-. now apply (written_same zero huge w a0).
Qed.

(** ** collapsed ranks *)
Definition sum := fold_right Nat.add 0.
Definition len1 (a : arr) : nat := match shape a with [m] => m | _ => 0 end.
Lemma put_ranks_one k x (l : list (dict (list arr))) : forall (ys : list arr) at0 A st,
  Forall2 (fun d y => exists e, get d x = Some e /\ nth_error e 0 = Some y /\ shape y = [len1 y]) l ys -> at0 + sum (map len1 ys) <= k -> put_ranks k 1 x l (at0, A) = Some st ->
  (forall p, p < at0 -> snd st 0 p = A 0 p) /\ forall q y i, nth_error ys q = Some y -> i < len1 y -> snd st 0 (at0 + sum (map len1 (firstn q ys)) + i) = elt y [i].
Proof.
  induction l as [|d l IH]; intros ys at0 A st F K; inversion F as [|? y ? ys' (e & He & Hy & Sy) F']; subst; cbn [put_ranks].
  - intros [= <-]. split; [reflexivity|]. intros [|q]; discriminate.
  - rewrite He. cbn [bind]. cbn [put_calls seq]. rewrite Hy. cbn [bind fst snd]. unfold put_at. rewrite Sy. cbn [map sum fold_right] in K. fold sum in K.
    assert (Nat.min k (at0 + len1 y) - Nat.min k at0 = len1 y) as -> by lia. rewrite Nat.eqb_refl. cbn [orb bind].
    intros E. apply (IH ys') in E; [|exact F'|fold (sum (map len1 ys')) in K; lia]. destruct E as (E1 & E2). cbn [Nat.eqb] in E1, E2. split.
    + intros p Hp. rewrite E1 by lia. destruct (Nat.leb_spec at0 p); [lia|reflexivity].
    + intros [|q] y' i; cbn [nth_error firstn map sum fold_right].
      * intros [= <-] Hi. rewrite Nat.add_0_r, E1 by lia. destruct (Nat.leb_spec at0 (at0 + i)); [|lia]. destruct (Nat.ltb_spec (at0 + i) (at0 + len1 y)); [|lia]. cbn [andb].
        f_equal. destruct (Nat.eqb_spec (len1 y) 1); f_equal; lia.
      * intros Hq Hi. rewrite <- (E2 q y' i Hq Hi). f_equal. unfold sum. lia.
Qed.
(** One savepoint, a variable with one axis that has other sizes on other ranks: rank 0 has the values of all ranks, one after another. *)
Theorem C110_collapse_partial dn nml sp files d l x a (w : nat -> arr) (m : nat -> nat) : ~ of_dynamics sp ->
  convert false dn nml sp files = Some d -> ds_savepoints d = 1 -> load d 0 0 = Some l -> get l x = Some a ->
  (forall r, r < total_ranks nml -> exists calls first, files (serializer_name dn r) = Some calls /\ nth_error calls 0 = Some first /\ get first x = Some (w r) /\ shape (w r) = [m r]) ->
  (exists r, r < total_ranks nml /\ m r <> m 0) ->
  shape a = [sum (map m (seq 0 (total_ranks nml)))] /\
  forall r i, r < total_ranks nml -> i < m r -> elt a [sum (map m (seq 0 r)) + i] = let v := elt (w r) [i] in if huge v then zero else v.
Proof.
  intros ND C DS L A H (r1 & Hr1 & Nr1).
  destruct (loaded _ _ _ _ _ _ _ _ _ _ _ C L A) as (kept & v & Gv & VR & HV & LK & SA & EA & _ & _ & _ & HK). rewrite DS in HV.
  set (t := total_ranks nml) in *.
  (* what is kept first on each rank *)
  assert (forall r k y e, r < t -> nth_error kept r = Some k -> get k x = Some e -> nth_error e 0 = Some y -> read_serialized_data zero huge (w r) = Some y) as RD.
  { intros r k y e Hr Hk He Hy. destruct (H r Hr) as (calls & first & F & Fi & G & _). destruct (HK r calls Hr F) as (k' & Hk' & Gk). assert (k' = k) by congruence. subst k'.
    destruct (kept_at dn nml files r 0 x kept calls first first (w r) (w r) k Gk) as (e' & y' & E' & Hy' & R); eauto. congruence. }
  unfold variable in HV. destruct (nth_error kept 0) as [d0|] eqn:D0; cbn [bind] in HV; [|discriminate]. destruct (get d0 x) as [e0|] eqn:E0; cbn [bind] in HV; [|discriminate].
  destruct (nth_error e0 0) as [y0|] eqn:Y0; cbn [bind] in HV; [|discriminate]. destruct (collapses (shape y0) x kept) as [c|] eqn:CO; cbn [bind] in HV; [|discriminate].
  destruct (dynamics sp) eqn:DY; [apply dynamics_spec in DY; contradiction|].
  assert (forall r y, r < t -> read_serialized_data zero huge (w r) = Some y -> (m r <> 1 /\ shape y = [m r]) \/ (m r = 1 /\ shape y = [])) as SH.
  { intros r y Hr R. destruct (H r Hr) as (_ & _ & _ & _ & _ & S). apply read_written in R. destruct R as [(N & S1 & _)|(N & s & S1 & S2 & _)]; rewrite S in *; cbn in N.
    - left. split; [lia|congruence].
    - right. injection S1 as -> <-. auto. }
  assert (0 < t) as T by lia.
  destruct c.
  2:{ exfalso. destruct (nth_error kept r1) as [k1|] eqn:K1; [|apply nth_error_None in K1; lia].
      destruct (collapses_false _ _ _ CO k1 (nth_error_In _ _ K1)) as (e1 & y1 & He1 & Hy1 & S1). pose proof (SH 0 y0 T (RD 0 d0 y0 e0 T D0 E0 Y0)) as A0. pose proof (SH r1 y1 Hr1 (RD r1 k1 y1 e1 Hr1 K1 He1 Hy1)) as A1.
      destruct A0 as [(? & Q0)|(? & Q0)], A1 as [(? & Q1)|(? & Q1)]; try congruence. }
  unfold get_data_collapse_all_ranks in HV. destruct (every _) as [sizes|] eqn:ES; cbn [bind] in HV; [|discriminate].
  destruct (put_ranks _ _ _ _ _) as [st|] eqn:EP; cbn [bind] in HV; [|discriminate]. injection HV as <-. cbn in SA, EA.
  (* the kept arrays *)
  assert (exists ys, Forall2 (fun d y => exists e, get d x = Some e /\ nth_error e 0 = Some y /\ shape y = [len1 y]) kept ys /\ sizes = map len1 ys) as (ys & FY & SY).
  { clear -ES. revert sizes ES. induction kept as [|k kept IH]; intros sizes; cbn [map every]; [intros [= <-]; exists []; split; [constructor|reflexivity]|].
    destruct (get k x) as [e|] eqn:G; cbn [bind]; [|discriminate]. destruct (nth_error e 0) as [y|] eqn:Y; cbn [bind]; [|discriminate]. destruct (shape y) as [|m0 [|]] eqn:SH; cbn [bind]; try discriminate.
    destruct (every _) as [r|]; cbn [bind]; [|discriminate]. intros [= <-]. destruct (IH r eq_refl) as (ys & F & ->). exists (y :: ys). split.
    - constructor; [|exact F]. exists e. unfold len1. now rewrite SH.
    - cbn. unfold len1 at 2. now rewrite SH. }
  assert (length ys = t) as LY by (rewrite <- (F2_len _ _ _ FY); exact LK).
  assert (forall r y, nth_error ys r = Some y -> r < t /\ shape y = [m r] /\ forall i, i < m r -> elt y [i] = if huge (elt (w r) [i]) then zero else elt (w r) [i]) as YS.
  { intros r y Hy. assert (r < t) as Hr by (rewrite <- LY; apply nth_error_Some; congruence). split; [exact Hr|]. destruct (F2_nth_r _ _ _ _ _ FY Hy) as (k & Hk & e & He & Hy0 & S0).
    pose proof (RD r k y e Hr Hk He Hy0) as R. destruct (SH r y Hr R) as [(Nm & Sy)|(_ & Sy)]; [|congruence]. split; [exact Sy|]. intros i Hi. apply read_written in R.
    destruct (H r Hr) as (_ & _ & _ & _ & _ & S). destruct R as [(_ & S1 & W)|(N & _)]; [apply W; rewrite S; now repeat constructor|]. rewrite S in N. cbn in N. lia. }
  assert (map len1 ys = map m (seq 0 t)) as ML.
  { apply nth_error_ext. intros r. rewrite !nth_error_map. destruct (nth_error ys r) as [y|] eqn:Y.
    - destruct (YS r y Y) as (Hr & S & _). rewrite seq_at by exact Hr. cbn. unfold len1. now rewrite S.
    - apply nth_error_None in Y. assert (nth_error (seq 0 t) r = None) as -> by (apply nth_error_None; rewrite seq_length; lia). reflexivity. }
  split; [rewrite SA; unfold sum; now rewrite SY, ML|].
  intros r i Hr Hi. destruct (nth_error ys r) as [y|] eqn:Y; [|apply nth_error_None in Y; lia]. destruct (YS r y Y) as (_ & Sy & W). rewrite EA. cbn [hd].
  destruct (put_ranks_one (fold_right Nat.add 0 sizes) x kept ys 0 (fun _ _ => nan) st FY) as (_ & P); [unfold sum; rewrite SY; lia|exact EP|].
  assert (map len1 (firstn r ys) = map m (seq 0 r)) as MF. { rewrite <- firstn_map, ML, firstn_map. f_equal. rewrite <- (firstn_all (seq 0 r)), seq_length. replace t with (r + (t - r)) by lia. rewrite seq_app, firstn_app, seq_length, Nat.sub_diag. cbn. now rewrite app_nil_r, firstn_all2 by (rewrite seq_length; lia). }
  rewrite <- (W i Hi). rewrite <- (P r y i Y); [|unfold len1; now rewrite Sy]. cbn [Nat.add]. now rewrite MF.
Qed.
End Props.
Print Assumptions C110_round_trip_partial.
Print Assumptions C110_loaded_partial.
Print Assumptions C110_stretched.
Print Assumptions C110_missing_partial.
Print Assumptions C110_tracer_partial.
Print Assumptions C110_merge_partial.
Print Assumptions C110_merge_first_partial.
Print Assumptions C110_collapse_partial.

(** Without a name for the data every rank has a file of its own. *)
Theorem C110_files r r' : serializer_name None r = serializer_name None r' -> r = r'.
Proof.
  cbn. intros H. injection H as H. unfold decimal in H. apply (f_equal NilEmpty.uint_of_string) in H. rewrite !NilEmpty.usu in H. injection H as H. now apply Unsigned.to_uint_inj.
Qed.
Print Assumptions C110_files.
Example C110_case_files : serializer_name None 12 = "Generator_rank12"%string /\ serializer_name (Some ""%string) 3 = "Generator_rank3"%string.
Proof. split; reflexivity. Qed.

(** ** cases *)
Local Notation convertz := (convert (-1)%Z 0%Z (Z.eqb 99%Z)).
Local Notation writtenz := (written 0%Z (Z.eqb 99%Z)).
Definition vec (l : list Z) : arr Z := Arr [length l] (fun i => nth (hd 0 i) l 0%Z).
Definition mat (n m : nat) (f : nat -> nat -> Z) : arr Z := Arr [n; m] (fun i => match i with [a; b] => f a b | _ => 0%Z end).
(** a doubly periodic grid: one tile, two ranks *)
Definition two : namelist := Namelist 4 5 5 (2, 1).
Definition one : namelist := Namelist 4 3 3 (1, 1).
Definition disk (f0 f1 : list (dict (arr Z))) (n : string) : option (list (dict (arr Z))) :=
  if (n =? "Generator_rank0")%string then Some f0 else if (n =? "Generator_rank1")%string then Some f1 else None.
(** the values of a variable with one axis *)
Definition values (a : arr Z) : list Z := match shape a with [n] => map (fun i => elt a [i]) (seq 0 n) | _ => [] end.
Definition shown merge dn nml sp files rank call (x : string) : option (list Z) :=
  do d <- convertz merge dn nml sp files; do l <- load d rank call; do a <- get l x; Some (values a).

Definition sample (r c : nat) : dict (arr Z) := [("u", vec [Z.of_nat (10 * r + c); 99%Z; 7%Z]); ("rank", vec [Z.of_nat r]); ("ak", vec [5%Z; Z.of_nat c])]%string.
Example C110_case : let files := disk (map (sample 0) (seq 0 2)) (map (sample 1) (seq 0 2)) in
  shown false None two "A-In" files 1 1 "u" = Some [11; 0; 7]%Z /\ shown false None two "A-In" files 0 1 "u" = Some [1; 0; 7]%Z /\ shown false None two "A-In" files 1 0 "ak" = Some [5; 0]%Z /\
  shown false None two "A-In" files 2 0 "u" = None /\ shown false None two "A-In" files 0 2 "u" = None.
Proof. vm_compute. repeat split. Qed.
Example C110_case_hypotheses : exists d, convertz false None two "A-In" (disk (map (sample 0) (seq 0 2)) (map (sample 1) (seq 0 2))) = Some d /\ exists l, load d 1 1 = Some l /\ In "u"%string (keys l).
Proof.
  destruct (C110_round_trip_partial (-1)%Z 0%Z (Z.eqb 99%Z) false None two "A-In" (disk (map (sample 0) (seq 0 2)) (map (sample 1) (seq 0 2))) sample 2 (fun x => if (x =? "u")%string then [3] else if (x =? "ak")%string then [2] else [1])) as (d & C & H & _).
  - now left. - lia. - cbn. lia.
  - intros [|[|r]] Hr; [reflexivity|reflexivity|cbn in Hr; lia].
  - intros r c x _ _ [<-|[<-|[<-|[]]]]; eexists; split; reflexivity.
  - intros x [<-|[<-|[<-|[]]]]; discriminate.
  - exists "u"%string. split; [now left|discriminate].
  - left. cbn. intuition discriminate.
  - exists d. split; [exact C|]. destruct (H 1 1) as (l & L & _ & _ & K & _); [cbn; lia|lia|]. exists l. split; [exact L|]. apply K. split; [now left|discriminate].
Qed.
(** sizes 2 and 3 *)
Example C110_case_collapse : let files := disk [[("i", vec [1; 2]%Z)]%string] [[("i", vec [3; 4; 99]%Z)]%string] in shown false None two "A-In" files 0 0 "i" = Some [1; 2; 3; 4; 0]%Z.
Proof. reflexivity. Qed.
(** variable v is on rank 0 only *)
Example C110_case_missing : let files := disk [[("u", vec [1; 2]%Z); ("v", vec [3; 4]%Z)]%string] [[("u", vec [5; 6]%Z)]%string] in
  shown false None two "A-In" files 1 0 "v" = Some [-1; -1]%Z /\ shown false None two "A-In" files 1 0 "u" = Some [5; 6]%Z.
Proof. vm_compute. split; reflexivity. Qed.
(** a tracer of 8 by 8 by 2 *)
Definition q8 (r : Z) : dict (arr Z) := [("qvapor"%string, Arr [8; 8; 2] (fun i => match i with [a; b; c] => (r * 1000 + Z.of_nat (100 * a + 10 * b + c))%Z | _ => 0%Z end))].
Example C110_case_tracer : exists d l a, convertz false None two "Driver-In" (disk [q8 1] [q8 2]) = Some d /\ load d 1 0 = Some l /\ get l "qvapor" = Some a /\
  shape a = [2; 2; 2] /\ elt a [1; 0; 1] = 2431%Z.
Proof. eexists. eexists. eexists. split; [vm_compute; reflexivity|]. split; [reflexivity|]. split; [reflexivity|]. split; reflexivity. Qed.
(** two blocks of two columns each for 2 by 2 columns *)
Definition block (b : Z) : dict (arr Z) := [("t"%string, mat 2 3 (fun i k => (100 * b + 10 * Z.of_nat i + Z.of_nat k)%Z)); ("ak"%string, vec [5; 6; 7]%Z)].
Example C110_case_merge : exists d l a, convertz true None one "A-In" (disk [block 1; block 2] []) = Some d /\ load d 0 0 = Some l /\ get l "t" = Some a /\
  shape a = [2; 2; 3] /\ elt a [1; 0; 2] = 202%Z /\ elt a [0; 1; 2] = 112%Z /\ ds_ranks d = total_ranks one.
Proof. eexists. eexists. eexists. split; [vm_compute; reflexivity|]. split; [reflexivity|]. split; [reflexivity|]. repeat split. Qed.
Example C110_case_merge_first : shown true None one "A-In" (disk [block 1; block 2] []) 0 0 "ak" = Some [5; 6; 7]%Z.
Proof. reflexivity. Qed.

(** ** what does not come back *)
(** The full statement, for one variable: what a rank serialized in a call is loaded for that rank and call. *)
Definition comes_back merge dn nml sp files : Prop := forall r c calls s x w, r < total_ranks nml -> files (serializer_name dn r) = Some calls -> nth_error calls c = Some s -> get s x = Some w -> x <> "rank"%string ->
  exists d l a, convertz merge dn nml sp files = Some d /\ load d r c = Some l /\ get l x = Some a /\ writtenz w a.
Lemma lost merge dn nml sp files r c calls s x w : r < total_ranks nml -> files (serializer_name dn r) = Some calls -> nth_error calls c = Some s -> get s x = Some w -> x <> "rank"%string ->
  (do d <- convertz merge dn nml sp files; do l <- load d r c; get l x) = None -> ~ comes_back merge dn nml sp files.
Proof. intros Hr F Hc G N E H. destruct (H r c calls s x w Hr F Hc G N) as (d & l & a & C & L & A & _). rewrite C in E. cbn [bind] in E. rewrite L in E. cbn [bind] in E. congruence. Qed.

(** Two savepoints of a variable whose size differs between ranks: the position moves on with every savepoint, and the conversion fails. *)
Definition ragged (r c : nat) : dict (arr Z) := [("i"%string, vec (map Z.of_nat (seq (10 * r + c) (2 + r))))].
Theorem C110_collapse_refuted : ~ comes_back false None two "A-In" (disk (map (ragged 0) (seq 0 2)) (map (ragged 1) (seq 0 2))) /\
  convertz false None two "A-In" (disk (map (ragged 0) (seq 0 2)) (map (ragged 1) (seq 0 2))) = None.
Proof. split; [|reflexivity]. eapply (lost _ _ _ _ _ 0 0 _ _ "i"); try reflexivity; [cbn; lia|discriminate]. Qed.
(** One savepoint: the values of rank 1 are under rank 0, rank 1 cannot be loaded. *)
Theorem C110_collapsed_rank_refuted : exists files d, convertz false None two "A-In" files = Some d /\ load d 0 0 <> None /\ load d 1 0 = None /\ ~ comes_back false None two "A-In" files.
Proof.
  exists (disk [ragged 0 0] [ragged 1 0]). eexists. split; [vm_compute; reflexivity|]. split; [discriminate|]. split; [reflexivity|]. eapply (lost _ _ _ _ _ 1 0 _ _ "i"); try reflexivity; [cbn; lia|discriminate].
Qed.
(** ... and with another variable in the savepoint that all ranks have in the same size there is no file. *)
Theorem C110_collapsed_beside_refuted : exists files, convertz false None two "A-In" files = None /\ ~ comes_back false None two "A-In" files.
Proof.
  exists (disk [ragged 0 0 ++ [("u"%string, vec [1; 2]%Z)]] [ragged 1 0 ++ [("u"%string, vec [3; 4]%Z)]]). split; [reflexivity|]. eapply (lost _ _ _ _ _ 0 0 _ _ "u"); try reflexivity; [cbn; lia|discriminate].
Qed.
(** A variable that a rank does not have: with two savepoints the filler is there only once, and nothing is converted. *)
Definition partly (r c : nat) : dict (arr Z) := ("u"%string, vec [Z.of_nat r; Z.of_nat c]) :: if r =? 0 then [("v"%string, vec [1; 2]%Z)] else [].
Theorem C110_missing_refuted : exists files, convertz false None two "A-In" files = None /\ ~ comes_back false None two "A-In" files.
Proof.
  exists (disk (map (partly 0) (seq 0 2)) (map (partly 1) (seq 0 2))). split; [reflexivity|]. eapply (lost _ _ _ _ _ 1 1 _ _ "u"); try reflexivity; [cbn; lia|discriminate].
Qed.
(** A variable that only rank 1 has is left out, silently. *)
Theorem C110_later_ranks_refuted : exists files d l, convertz false None two "A-In" files = Some d /\ load d 1 0 = Some l /\ get l "v" = None /\ ~ comes_back false None two "A-In" files.
Proof.
  exists (disk [partly 1 0] [partly 0 0]). eexists. eexists. split; [vm_compute; reflexivity|]. split; [reflexivity|]. split; [reflexivity|]. eapply (lost _ _ _ _ _ 1 0 _ _ "v"); try reflexivity; [cbn; lia|discriminate].
Qed.
(** The last rank has fewer savepoints: the later calls of the other ranks are left out, silently. *)
Theorem C110_last_rank_refuted : exists files d, convertz false None two "A-In" files = Some d /\ load d 0 0 <> None /\ load d 0 1 = None /\ ~ comes_back false None two "A-In" files.
Proof.
  exists (disk (map (sample 0) (seq 0 2)) (map (sample 1) (seq 0 1))). eexists. split; [vm_compute; reflexivity|]. split; [discriminate|]. split; [reflexivity|]. eapply (lost _ _ _ _ _ 0 1 _ _ "u"); try reflexivity; [cbn; lia|discriminate].
Qed.
(** In a later call the variable has one element: it is loaded with three. *)
Theorem C110_broadcast_refuted : exists files, shown false None one "A-In" files 0 1 "u" = Some [7; 7; 7]%Z /\ ~ comes_back false None one "A-In" files.
Proof.
  exists (disk [[("u", vec [1; 2; 3]%Z)]%string; [("u", vec [7]%Z)]%string] []). split; [reflexivity|].
  intros H. destruct (H 0 1 _ _ "u"%string (vec [7%Z]) (Nat.lt_0_succ 0) eq_refl eq_refl eq_refl) as (d & l & a & C & L & A & W); [discriminate|].
  assert (exists d0, convertz false None one "A-In" (disk [[("u", vec [1; 2; 3]%Z)]%string; [("u", vec [7]%Z)]%string] []) = Some d0 /\ (do l <- load d0 0 1; do a <- get l "u"; Some (shape a)) = Some [3]) as (d0 & C0 & E).
  { eexists. split; [vm_compute; reflexivity|]. reflexivity. }
  rewrite C in C0. injection C0 as <-. rewrite L in E. cbn [bind] in E. rewrite A in E. cbn [bind] in E. injection E as E. destruct W as [(N & _)|(_ & s & S1 & S2 & _)]; [now apply N|]. cbn in S1. injection S1 as <-. congruence.
Qed.
(** 1e40 of a single value stays. *)
Theorem C110_single_value_refuted : exists files d l a, convertz false None one "A-In" files = Some d /\ load d 0 0 = Some l /\ get l "dt" = Some a /\ shape a = [] /\ elt a [] = 99%Z.
Proof. exists (disk [[("dt", vec [99]%Z)]%string] []). eexists. eexists. eexists. split; [vm_compute; reflexivity|]. split; [reflexivity|]. split; [reflexivity|]. split; reflexivity. Qed.
(** A vertical profile with as many levels as a block has columns is made into a field when the blocks are merged. *)
Theorem C110_merge_profile_refuted : exists files d l a, convertz true None one "A-In" files = Some d /\ load d 0 0 = Some l /\ get l "ak" = Some a /\ shape a = [2; 2] /\
  (forall calls s w, files "Generator_rank0"%string = Some calls -> In s calls -> get s "ak" = Some w -> values w = [5; 6]%Z).
Proof.
  exists (disk [[("ak", vec [5; 6]%Z)]%string; [("ak", vec [5; 6]%Z)]%string] []). eexists. eexists. eexists. split; [vm_compute; reflexivity|]. split; [reflexivity|]. split; [reflexivity|]. split; [reflexivity|].
  intros calls s w [= <-] [<-|[<-|[]]] [= <-]; reflexivity.
Qed.
(** A name for the data is the name of the file of every rank. *)
Theorem C110_data_name_refuted : forall dn r r', dn <> ""%string -> serializer_name (Some dn) r = serializer_name (Some dn) r'.
Proof. intros dn r r' N. cbn. destruct (String.eqb_spec dn ""); [contradiction|reflexivity]. Qed.
Theorem C110_data_name_loaded_refuted : exists d, convertz false (Some "Fortran"%string) two "A-In" (fun n => if (n =? "Fortran")%string then Some [sample 0 0] else disk [sample 0 0] [sample 1 0] n) = Some d /\
  exists l a, load d 1 0 = Some l /\ get l "u" = Some a /\ values a = [0; 0; 7]%Z.
Proof. eexists. split; [vm_compute; reflexivity|]. eexists. eexists. split; [reflexivity|]. split; reflexivity. Qed.
Print Assumptions C110_collapse_refuted.
Print Assumptions C110_collapsed_rank_refuted.
Print Assumptions C110_collapsed_beside_refuted.
Print Assumptions C110_missing_refuted.
Print Assumptions C110_later_ranks_refuted.
Print Assumptions C110_last_rank_refuted.
Print Assumptions C110_broadcast_refuted.
Print Assumptions C110_single_value_refuted.
Print Assumptions C110_merge_profile_refuted.
Print Assumptions C110_data_name_refuted.
Print Assumptions C110_data_name_loaded_refuted.
