(** C54: restart variables load under their own names. *)
From Verif Require Import Base Dict RestartModel.
Local Open Scope string_scope.

Lemma last_some {A} (l : list A) : forall a, exists m, last (Some a :: map Some l) (@None A) = Some m.
Proof. induction l as [|b l IH]; intros a; [exists a; reflexivity|]. exact (IH b). Qed.

Section Proofs.
  Context {V : Type}.

  (** ** the table restart name -> standard name *)
  Lemma names_get props : forall d r,
    get (fold_left (fun d p => put d (snd p) (fst p)) props d) r =
    match last (map Some (claimants props r)) None with Some n => Some n | None => get d r end.
  Proof.
    induction props as [|[n r'] props IH]; intros d r; [reflexivity|]. cbn [fold_left]. rewrite IH. unfold claimants. cbn [filter fst snd].
    rewrite get_put. destruct (String.eqb_spec r' r) as [->|N].
    - rewrite String.eqb_refl. cbn [map fst]. destruct (map fst (filter (fun p => snd p =? r) props)) as [|a l]; [reflexivity|].
      cbn [map]. change (last (Some n :: Some a :: map Some l) None) with (last (Some a :: map Some l) None).
      destruct (last_some l a) as [m ->]. reflexivity.
    - destruct (String.eqb_spec r r'); [congruence|reflexivity].
  Qed.
  Lemma standard_get props r : get (standard_names props) r = last (map Some (claimants props r)) None.
  Proof. unfold standard_names. rewrite names_get. destruct (last _ _); reflexivity. Qed.

  Lemma standard_nodup props : NoDup (keys (standard_names props)).
  Proof.
    unfold standard_names. assert (H : forall d : dict string, NoDup (keys d) -> NoDup (keys (fold_left (fun d p => put d (snd p) (fst p)) props d))).
    { induction props as [|p props IH]; cbn; auto. intros d N. apply IH. now apply put_NoDup. }
    apply H. constructor.
  Qed.

  (** ** renaming *)
  Lemma first_loop (old : dict V) names : forall d n,
    get (fold_left (fun d kn => match get old (fst kn) with Some v => put d (snd kn) v | None => d end) names d) n =
    match last (map Some (filter (fun kn => (snd kn =? n) && match get old (fst kn) with Some _ => true | None => false end) names)) None with
    | Some kn => get old (fst kn) | None => get d n end.
  Proof.
    induction names as [|[k m] names IH]; intros d n; [reflexivity|]. cbn [fold_left fst snd filter]. rewrite IH.
    destruct (get old k) as [v|] eqn:G; [|now rewrite andb_false_r].
    rewrite get_put, andb_true_r. destruct (String.eqb_spec m n) as [->|N].
    - rewrite String.eqb_refl. set (l := filter _ names). destruct l as [|a l]; cbn [map]; [cbn; now rewrite G|].
      change (last (Some (k, n) :: Some a :: map Some l) None) with (last (Some a :: map Some l) None).
      destruct (last_some l a) as [x ->]. reflexivity.
    - destruct (String.eqb_spec n m); [congruence|reflexivity].
  Qed.
  Lemma second_loop (names : dict string) (old : dict V) : NoDup (keys old) -> forall d n,
    get (fold_left (fun d kv => match get names (fst kv) with Some _ => d | None => put d (fst kv) (snd kv) end) old d) n =
    match get names n, get old n with None, Some v => Some v | _, _ => get d n end.
  Proof.
    induction old as [|[k v] old IH]; intros N d n; [cbn; now destruct (get names n)|].
    cbn [fold_left fst snd keys map] in *. apply NoDup_cons_iff in N. destruct N as [N1 N2]. rewrite IH by exact N2. cbn [get].
    destruct (String.eqb_spec n k) as [->|Nk].
    - assert (G : get old k = None) by now apply get_none. rewrite G. destruct (get names k) eqn:Gk; [reflexivity|].
      now rewrite get_put, String.eqb_refl.
    - destruct (get names k); [reflexivity|]. rewrite get_put. destruct (String.eqb_spec n k); [contradiction|reflexivity].
  Qed.
End Proofs.

Lemma get_filter {V} (f : string * V -> bool) d k : NoDup (keys d) ->
  get (filter f d) k = match get d k with Some v => if f (k, v) then Some v else None | None => None end.
Proof.
  induction d as [|[j v] d IH]; cbn; intros N; [reflexivity|]. apply NoDup_cons_iff in N. destruct N as [N1 N2].
  specialize (IH N2). destruct (String.eqb_spec k j) as [->|Nk].
  - destruct (f (j, v)); cbn; [now rewrite String.eqb_refl|]. rewrite IH. replace (get d j) with (@None V); [reflexivity|].
    symmetry. now apply get_none.
  - destruct (f (j, v)); cbn; [|exact IH]. destruct (String.eqb_spec k j); [contradiction|exact IH].
Qed.

Lemma filter_unique {A B} (f : A * B -> bool) (l : list (A * B)) x :
  NoDup (map fst l) -> In x l -> f x = true -> (forall y, In y l -> f y = true -> fst y = fst x) -> filter f l = [x].
Proof.
  induction l as [|y l IH]; cbn; intros N I F U; [tauto|]. apply NoDup_cons_iff in N. destruct N as [N1 N2].
  destruct I as [<-|I].
  - rewrite F. f_equal. clear IH. assert (K : forall z, In z l -> f z = false).
    { intros z Iz. destruct (f z) eqn:E; [|reflexivity]. exfalso. apply N1. rewrite <- (U z (or_intror Iz) E). now apply in_map. }
    clear -K. induction l as [|z l IH]; [reflexivity|]. cbn. rewrite (K z) by now left. apply IH. intros w Iw. apply K. now right.
  - destruct (f y) eqn:E.
    + exfalso. apply N1. rewrite (U y (or_introl eq_refl) E). now apply in_map.
    + apply IH; auto.
Qed.
Lemma filter_empty {A} (f : A -> bool) (l : list A) : (forall y, In y l -> f y = false) -> filter f l = [].
Proof. induction l as [|y l IH]; cbn; intros H; [reflexivity|]. rewrite (H y) by now left. apply IH. intros z I. apply H. now right. Qed.

Lemma last_in {A} (l : list A) x : last (map Some l) None = Some x -> In x l.
Proof.
  induction l as [|a l IH]; [discriminate|]. destruct l as [|b l]; [cbn; intros [= <-]; now left|].
  intros H. right. apply IH. exact H.
Qed.
Lemma claimant_prop props n r : In n (claimants props r) <-> In (n, r) props.
Proof.
  unfold claimants. rewrite in_map_iff. split.
  - intros ([m s] & <- & I). apply filter_In in I. destruct I as [I E]. apply String.eqb_eq in E. cbn in *. now subst.
  - intros I. exists (n, r). split; [reflexivity|]. apply filter_In. split; [exact I|]. apply String.eqb_refl.
Qed.
Lemma prop_unique (props : dict string) n r r' : NoDup (keys props) -> In (n, r) props -> In (n, r') props -> r = r'.
Proof. intros N I I'. apply in_get in I; [|exact N]. apply in_get in I'; [|exact N]. congruence. Qed.

Lemma map_keys_get {V} (props : dict string) (old : dict V) n r :
  NoDup (keys props) -> In (n, r) props -> NoDup (keys old) ->
  get (map_keys old (standard_names props)) n =
  match claimants props n, get old n with
  | [], Some v => Some v
  | _, _ => if match last (map Some (claimants props r)) None with Some m => (m =? n)%string | None => false end then get old r else None
  end.
Proof.
  intros Np I No. unfold map_keys. rewrite second_loop by exact No. rewrite first_loop, standard_get.
  assert (F : match last (map Some (filter (fun kn => (snd kn =? n) && match get old (fst kn) with Some _ => true | None => false end) (standard_names props))) None with
              | Some kn => get old (fst kn) | None => get (@nil (string * V)) n end =
              if match last (map Some (claimants props r)) None with Some m => (m =? n)%string | None => false end then get old r else None).
  { (* an entry of the table for n is (r, n) *)
    assert (E : forall kn, In kn (standard_names props) -> snd kn = n -> fst kn = r /\ last (map Some (claimants props r)) None = Some n).
    { intros [k m] Ik Em. cbn in *. subst m. apply in_get in Ik; [|apply standard_nodup]. rewrite standard_get in Ik.
      pose proof (last_in _ _ Ik) as J. apply claimant_prop in J. rewrite (prop_unique props n r k Np I J). auto. }
    destruct (last (map Some (claimants props r)) None) as [m|] eqn:L.
    - destruct (String.eqb_spec m n) as [->|N].
      + assert (Ie : In (r, n) (standard_names props)). { apply get_in. now rewrite standard_get. }
        destruct (get old r) as [v|] eqn:G.
        * rewrite (filter_unique _ _ (r, n)); [cbn; exact G|apply standard_nodup|exact Ie|cbn; now rewrite String.eqb_refl, G|].
          intros y Iy Fy. apply andb_true_iff in Fy. destruct Fy as [Fy _]. apply String.eqb_eq in Fy. cbn. now apply E.
        * rewrite filter_empty; [reflexivity|]. intros y Iy. destruct (String.eqb_spec (snd y) n) as [Ey|]; [|reflexivity].
          destruct (E y Iy Ey) as [-> _]. now rewrite G.
      + rewrite filter_empty; [reflexivity|]. intros y Iy. destruct (String.eqb_spec (snd y) n) as [Ey|]; [|reflexivity].
        destruct (E y Iy Ey) as [_ K]. congruence.
    - rewrite filter_empty; [reflexivity|]. intros y Iy. destruct (String.eqb_spec (snd y) n) as [Ey|]; [|reflexivity].
      destruct (E y Iy Ey) as [_ K]. congruence. }
  rewrite F. destruct (claimants props n) as [|a l] eqn:C; [reflexivity|].
  cbn [map]. destruct (last_some l a) as [m ->]. reflexivity.
Qed.

Lemma map_keys_nodup {V} (old : dict V) names : NoDup (keys (map_keys old names)).
Proof.
  unfold map_keys. assert (A : forall l (d : dict V), NoDup (keys d) -> NoDup (keys (fold_left (fun d kv => match get names (fst kv) with Some _ => d | None => put d (fst kv) (snd kv) end) l d))).
  { induction l as [|x l IH]; cbn; auto. intros d N. apply IH. destruct (get names (fst x)); auto. now apply put_NoDup. }
  apply A. assert (B : forall (l : dict string) (d : dict V), NoDup (keys d) -> NoDup (keys (fold_left (fun d kn => match get old (fst kn) with Some v => put d (snd kn) v | None => d end) l d))).
  { induction l as [|x l IH]; cbn; auto. intros d N. apply IH. destruct (get old (fst x)); auto. now apply put_NoDup. }
  apply B. constructor.
Qed.

Fixpoint nodupb (l : list string) : bool := match l with [] => true | x :: l' => negb (existsb (String.eqb x) l') && nodupb l' end.
Lemma nodupb_ok l : nodupb l = true -> NoDup l.
Proof.
  induction l as [|x l IH]; cbn; intros H; [constructor|]. apply andb_true_iff in H. destruct H as [H1 H2]. constructor; [|auto].
  intros I. apply negb_true_iff in H1. assert (E : existsb (String.eqb x) l = true).
  { apply existsb_exists. exists x. split; [exact I|apply String.eqb_refl]. }
  congruence.
Qed.
Lemma table_nodup : NoDup (keys RESTART_PROPERTIES).
Proof. apply nodupb_ok. vm_compute. reflexivity. Qed.

(** Partial: for every table and every file, a property whose restart name no other property claims is loaded from the
    variable of that name (and from nothing else), provided the file has no variable that is literally called like the
    property.  Missing: properties sharing a restart name; see the refutations. *)
Theorem C54_own_name_partial : forall V has_units (props : dict string) (old : dict V) n r only_names,
  NoDup (keys props) -> NoDup (keys old) -> In (n, r) props ->
  claimants props r = [n] -> get old n = None ->
  match only_names with Some l => In n l | None => True end ->
  get (load has_units props only_names old) n = get old r.
Proof.
  intros V hu props old n r only Np No I C G O. unfold load. rewrite get_filter by apply map_keys_nodup.
  rewrite (map_keys_get props old n r Np I No), C, G. cbn [map last]. rewrite String.eqb_refl.
  assert (R : match claimants props n with [] => get old r | _ :: _ => get old r end = get old r) by now destruct (claimants props n).
  rewrite R. destruct (get old r) as [v|]; [|reflexivity]. cbn [fst snd].
  apply in_get in I; [|exact Np]. rewrite I, !orb_true_r. cbn [andb].
  destruct only as [l|]; [|reflexivity]. replace (existsb (fun n0 => n =? n0) l) with true; [reflexivity|].
  symmetry. apply existsb_exists. exists n. split; [exact O|apply String.eqb_refl].
Qed.
Print Assumptions C54_own_name_partial.

(** In the table in use this is every property except those with one of four restart names. *)
Theorem C54_table_partial : forall V has_units (old : dict V) n r,
  NoDup (keys old) -> In (n, r) RESTART_PROPERTIES -> ~ In r ["sfcflw"; "sfcfsw"; "topflw"; "topfsw"] -> get old n = None ->
  get (load has_units RESTART_PROPERTIES None old) n = get old r.
Proof.
  intros V hu old n r No I Nr G. apply C54_own_name_partial; auto.
  - exact table_nodup.
  - assert (A : forallb (fun p => existsb (fun d => snd p =? d) ["sfcflw"; "sfcfsw"; "topflw"; "topfsw"] ||
                 match claimants RESTART_PROPERTIES (snd p) with [m] => fst p =? m | _ => false end) RESTART_PROPERTIES = true) by (vm_compute; reflexivity).
    rewrite forallb_forall in A. specialize (A _ I). cbn [fst snd] in A. apply orb_true_iff in A. destruct A as [A|A].
    + exfalso. apply Nr. apply existsb_exists in A. destruct A as (d & Id & E). apply String.eqb_eq in E. now subst.
    + destruct (claimants RESTART_PROPERTIES r) as [|m [|]]; try discriminate. apply String.eqb_eq in A. now subst.
Qed.
Print Assumptions C54_table_partial.
Example C54_case :
  get (load (fun _ : Z => false) RESTART_PROPERTIES None [("T", 1%Z); ("ak", 2%Z); ("yaxis_1", 3%Z)]) "air_temperature" = Some 1%Z /\
  keys (load (fun _ : Z => false) RESTART_PROPERTIES None [("T", 1%Z); ("ak", 2%Z); ("yaxis_1", 3%Z)]) = ["air_temperature"; "atmosphere_hybrid_a_coordinate"].
Proof. vm_compute. auto. Qed.

(** Nothing else is loaded: every name in the state was asked for, and is "time", a property, or a variable with its own units; *)
Theorem C54_nothing_else : forall V has_units (props : dict string) (old : dict V) only_names n v,
  get (load has_units props only_names old) n = Some v ->
  match only_names with Some l => In n l | None => True end /\
  (n = "time" \/ has_units v = true \/ exists r, In (n, r) props).
Proof.
  intros V hu props old only n v G. apply get_in in G. unfold load in G. apply filter_In in G. destruct G as [_ G]. cbn [fst snd] in G.
  apply andb_true_iff in G. destruct G as [A B]. split.
  - destruct only as [l|]; [|exact I]. apply existsb_exists in B. destruct B as (m & M & E). apply String.eqb_eq in E. now subst m.
  - apply orb_true_iff in A. destruct A as [A|A]; [apply orb_true_iff in A; destruct A as [A|A]|].
    + left. now apply String.eqb_eq. + right. now left.
    + right. right. destruct (get props n) as [r|] eqn:P; [|discriminate]. exists r. now apply get_in.
Qed.
Print Assumptions C54_nothing_else.
(** and the time of the file is, whether or not it has units. *)
Lemma fold_rest_kept {V} (names : dict string) n (v : V) : get names n = None -> forall (old d : dict V), NoDup (keys old) -> In (n, v) old ->
  get (fold_left (fun d kv => match get names (fst kv) with Some _ => d | None => put d (fst kv) (snd kv) end) old d) n = Some v.
Proof.
  intros G. assert (OTHER : forall (old d : dict V), ~ In n (keys old) ->
    get (fold_left (fun d kv => match get names (fst kv) with Some _ => d | None => put d (fst kv) (snd kv) end) old d) n = get d n).
  { induction old as [|[k w] old IH]; intros d N; [reflexivity|]. cbn [fold_left fst snd]. rewrite IH by (intro; apply N; now right).
    destruct (get names k); [reflexivity|]. rewrite get_put. destruct (String.eqb_spec n k) as [->|]; [|reflexivity]. exfalso. apply N. now left. }
  induction old as [|[k w] old IH]; intros d N I; [destruct I|]. inversion N as [|? ? Nk N']; subst. cbn [fold_left fst snd].
  destruct I as [E|I]; [|now apply IH]. injection E as -> ->. rewrite OTHER by exact Nk. rewrite G, get_put, String.eqb_refl. reflexivity.
Qed.
Lemma standard_names_in props r n : get (standard_names props) r = Some n -> In (n, r) props.
Proof.
  unfold standard_names. assert (H : forall (ps : dict string) d, get (fold_left (fun d p => put d (snd p) (fst p)) ps d) r = Some n ->
    In (n, r) ps \/ get d r = Some n).
  { induction ps as [|[a b] ps IH]; intros d G; [now right|]. cbn [fold_left fst snd] in G. apply IH in G. destruct G as [G|G]; [left; now right|].
    rewrite get_put in G. destruct (String.eqb_spec r b) as [->|]; [|now right]. left. left. now injection G as ->. }
  intro G. apply H in G. destruct G as [G|G]; [exact G|discriminate].
Qed.
Theorem C54_time : forall V has_units (props : dict string) (old : dict V) only_names v,
  NoDup (keys old) -> (forall n r, In (n, r) props -> n <> "time" /\ r <> "time") -> get old "time" = Some v ->
  match only_names with Some l => In "time" l | None => True end ->
  get (load has_units props only_names old) "time" = Some v.
Proof.
  intros V hu props old only v No P G O. unfold load. rewrite get_filter by apply map_keys_nodup.
  assert (M : get (map_keys old (standard_names props)) "time" = Some v).
  { unfold map_keys. apply fold_rest_kept; [|exact No|now apply get_in].
    destruct (get (standard_names props) "time") as [n|] eqn:S; [|reflexivity]. apply standard_names_in in S. now apply P in S. }
  rewrite M. cbn [fst snd]. rewrite String.eqb_refl. cbn [orb andb]. destruct only as [l|]; [|reflexivity].
  replace (existsb (fun n0 => "time" =? n0) l) with true; [reflexivity|]. symmetry. apply existsb_exists. exists "time". split; [exact O|reflexivity].
Qed.
Print Assumptions C54_time.
Example C54_time_case : (forall n r, In (n, r) RESTART_PROPERTIES -> n <> "time" /\ r <> "time") /\
  keys (load (fun _ : Z => false) RESTART_PROPERTIES (Some ["time"; "air_temperature"]) [("T", 1%Z); ("ak", 2%Z); ("time", 3%Z)]) = ["air_temperature"; "time"].
Proof.
  split; [|reflexivity]. intros n r I. assert (A : forallb (fun p => negb (fst p =? "time") && negb (snd p =? "time")) RESTART_PROPERTIES = true) by (vm_compute; reflexivity).
  rewrite forallb_forall in A. specialize (A _ I). cbn [fst snd] in A. apply andb_true_iff in A. destruct A as [A B].
  apply negb_true_iff in A, B. apply String.eqb_neq in A, B. auto.
Qed.

(** Finding: four restart names are claimed by two to four properties each.  Only the last claimant is ever loaded: for every
    file, the others are absent from the state even if the file has the variable (and its data is then labelled with the name
    of the last claimant). *)
Definition shadowed : list string :=
  ["clear_sky_downward_longwave_flux_at_surface"; "clear_sky_downward_shortwave_flux_at_surface"; "clear_sky_upward_longwave_flux_at_surface";
   "clear_sky_upward_longwave_flux_at_top_of_atmosphere"; "clear_sky_upward_shortwave_flux_at_surface"; "clear_sky_upward_shortwave_flux_at_top_of_atmosphere";
   "total_sky_downward_longwave_flux_at_surface"; "total_sky_downward_shortwave_flux_at_surface"; "total_sky_downward_shortwave_flux_at_top_of_atmosphere"].
Theorem C54_own_name_refuted : forall n, In n shadowed ->
  exists r, In (n, r) RESTART_PROPERTIES /\
  (forall V has_units (old : dict V), NoDup (keys old) -> get old n = None ->
     get (load has_units RESTART_PROPERTIES None old) n = None) /\
  exists m, m <> n /\ In (m, r) RESTART_PROPERTIES /\
     get (load (fun _ : Z => false) RESTART_PROPERTIES None [(r, 1%Z)]) m = Some 1%Z.
Proof.
  assert (K : NoDup (keys RESTART_PROPERTIES)).
  { exact table_nodup. }
  assert (A : forall n r, In (n, r) RESTART_PROPERTIES -> last (map Some (claimants RESTART_PROPERTIES r)) None <> Some n ->
     forall V has_units (old : dict V), NoDup (keys old) -> get old n = None -> get (load has_units RESTART_PROPERTIES None old) n = None).
  { intros n r I L V hu old No G. unfold load. rewrite get_filter by apply map_keys_nodup.
    rewrite (map_keys_get _ old n r K I No), G.
    destruct (last (map Some (claimants RESTART_PROPERTIES r)) None) as [m|].
    - destruct (String.eqb_spec m n) as [->|]; [congruence|]. now destruct (claimants RESTART_PROPERTIES n).
    - now destruct (claimants RESTART_PROPERTIES n). }
  intros n I.
  assert (B : exists r m, get RESTART_PROPERTIES n = Some r /\ last (map Some (claimants RESTART_PROPERTIES r)) None = Some m /\ m <> n /\
     get (load (fun _ : Z => false) RESTART_PROPERTIES None [(r, 1%Z)]) m = Some 1%Z).
  { cbn in I. repeat (destruct I as [<-|I]; [do 2 eexists; split; [vm_compute; reflexivity|]; split; [vm_compute; reflexivity|]; split; [discriminate|vm_compute; reflexivity]|]). destruct I. }
  destruct B as (r & m & Gn & L & N & Lm). exists r. split; [now apply get_in|]. split.
  - apply (A n r); [now apply get_in|congruence].
  - exists m. split; [exact N|]. split; [|exact Lm]. apply claimant_prop. now apply last_in.
Qed.
Print Assumptions C54_own_name_refuted.

(** The file of a rank: two ranks of the same run never have the same file suffix, and the tile number is one of 1..6. *)
Theorem C54_rank_files : forall total r1 r2, (0 <= r1 < total)%Z -> (0 <= r2 < total)%Z -> (total mod 6 = 0)%Z ->
  exists t1 c1, rank_suffix r1 total = Some (t1, c1) /\ (1 <= t1 <= 6)%Z /\
  (rank_suffix r1 total = rank_suffix r2 total -> r1 = r2).
Proof.
  intros total r1 r2 H1 H2 M. unfold rank_suffix. rewrite M, Z.eqb_refl.
  assert (T : total = (6 * (total / 6))%Z) by (pose proof (Z.div_mod total 6); lia).
  set (k := (total / 6)%Z) in *. assert (K : (0 < k)%Z) by lia.
  do 2 eexists. split; [reflexivity|]. split.
  - assert ((0 <= r1 / k)%Z) by (apply Z.div_pos; lia). assert ((r1 / k < 6)%Z) by (apply Z.div_lt_upper_bound; lia). lia.
  - intros E. apply (f_equal (fun o => match o with Some x => x | None => (0%Z, None) end)) in E. apply pair_equal_spec in E. destruct E as [E1 E2].
    assert (D : (r1 / k = r2 / k)%Z) by lia.
    assert (R : (r1 mod k = r2 mod k)%Z).
    { destruct (Z.gtb_spec total 6).
      - now apply some_inj in E2.
      - assert (k = 1)%Z by lia. replace k with 1%Z by lia. now rewrite !Z.mod_1_r. }
    rewrite (Z.div_mod r1 k), (Z.div_mod r2 k) by lia. congruence.
Qed.
Print Assumptions C54_rank_files.
Example C54_rank_files_case : rank_suffix 17 24 = Some (5%Z, Some 1%Z) /\ rank_suffix 3 6 = Some (4%Z, None).
Proof. vm_compute. auto. Qed.
