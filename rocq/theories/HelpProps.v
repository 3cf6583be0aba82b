(** C95: the containers of grid quantities. *)
From Verif Require Import LazyModel LazyProofs LazyProofs2 LazyProofs3 LazyProps HelpModel.

(** the name under which MetricTerms has a term *)
Definition called (t : term) : string :=
  match t with
  | dx => "dx" | dy => "dy" | dxa => "dxa" | dya => "dya" | dxc => "dxc" | dyc => "dyc"
  | ec1 => "ec1" | ec2 => "ec2" | ew1 => "ew1" | ew2 => "ew2" | es1 => "es1" | es2 => "es2" | ee1 => "ee1" | ee2 => "ee2"
  | cos_sg i => "cos_sg" ++ digit (S i) | sin_sg i => "sin_sg" ++ digit (S i)
  | cosa => "cosa" | sina => "sina" | cosa_u => "cosa_u" | cosa_v => "cosa_v" | cosa_s => "cosa_s" | sina_u => "sina_u"
  | sina_v => "sina_v" | rsin_u => "rsin_u" | rsin_v => "rsin_v" | rsina => "rsina" | rsin2 => "rsin2"
  | l2c_v => "l2c_v" | l2c_u => "l2c_u" | divg_u => "divg_u" | divg_v => "divg_v" | del6_u => "del6_u" | del6_v => "del6_v"
  | vlon => "vlon" | vlat => "vlat" | z11 => "z11" | z12 => "z12" | z21 => "z21" | z22 => "z22"
  | a11 => "a11" | a12 => "a12" | a21 => "a21" | a22 => "a22"
  | edge_w => "edge_w" | edge_e => "edge_e" | edge_s => "edge_s" | edge_n => "edge_n"
  | edge_vect_w_1d => "edge_vect_w_1d" | edge_vect_w => "edge_vect_w" | edge_vect_e_1d => "edge_vect_e_1d"
  | edge_vect_e => "edge_vect_e" | edge_vect_s => "edge_vect_s" | edge_vect_n => "edge_vect_n"
  | da_min => "da_min" | da_max => "da_max" | da_min_c => "da_min_c" | da_max_c => "da_max_c"
  | area => "area" | area64 => "area64" | area_c => "area_c" | rarea => "rarea" | rarea_c => "rarea_c"
  | rdx => "rdx" | rdy => "rdy" | rdxa => "rdxa" | rdya => "rdya" | rdxc => "rdxc" | rdyc => "rdyc"
  | grid => "grid" | agrid => "agrid" | lon => "lon" | lat => "lat" | lon_agrid => "lon_agrid" | lat_agrid => "lat_agrid"
  | ak => "ak" | bk => "bk"
  end.
(** the terms that GridData has, under their own names but for area_64 *)
Definition grid_terms : list term :=
  ([lon; lat; lon_agrid; lat_agrid; area; area64; rarea; rarea_c; dx; dy; dxc; dyc; dxa; dya; rdx; rdy; rdxc; rdyc; rdxa; rdya;
    ee1; ee2; es1; ew2; a11; a12; a21; a22; edge_w; edge_e; edge_s; edge_n; ak; bk;
    cosa; cosa_u; cosa_v; cosa_s; sina_u; sina_v; rsina; rsin_u; rsin_v; rsin2] ++ map sin_sg (seq 0 9) ++ map cos_sg (seq 0 9))%list.
Definition grid_name (t : term) : string := match t with area64 => "area_64" | _ => called t end.
Definition damping_terms : list term := [divg_u; divg_v; del6_u; del6_v; da_min; da_min_c].

Section Props.
  Context {V Rank : Type} (net : call -> (Rank -> list V) -> Rank -> list V).
  Hypothesis net_ext : forall c d d' r, (forall r', d r' = d' r') -> net c d r = net c d' r.
  Variable cart : bool.
  Variable comp : Rank -> string -> nat -> list V -> V.
  Variable round : V -> V.
  Variable init : Rank -> string -> V.
  Notation DD := (D net comp round init cart).
  Notation cont := (content net comp round init cart).
  Notation reading ts := (session cart comp round init (fun _ => ts)).

  (** [v] is what reading the term [t] alone, on fresh objects, gives on rank [r] *)
  Definition is_term (t : term) (r : Rank) (v : value V) : Prop :=
    exists m solo o, runs net (reading [t]) m solo /\ solo r = [Some o] /\ what o = v.

  Lemma content_is t r : valid t -> is_term t r (cont t r).
  Proof.
    intros Vt. destruct (session_run net cart comp round init [t]) as (m & solo & s & d & _ & R & _ & _ & Q); [repeat constructor; exact Vt|].
    specialize (Q r). inversion Q as [|? o1 ? l1 (o' & -> & W & _) Q2]; subst. inversion Q2; subst.
    exists m, solo, o'. split; [exact R|]. split; [symmetry; assumption|exact W].
  Qed.

  Lemma getattr_combine (l : list (string * term)) (P : term -> option (obj V) -> Prop) os a t :
    Forall2 P (map snd l) os -> assoc l a = Some t -> exists o, getattr (combine (map fst l) os) a = o /\ P t o.
  Proof.
    revert os. induction l as [|[b u] l IH]; intros os F E; [discriminate|].
    inversion F as [|? o ? os' Po F']; subst. cbn [map fst snd combine getattr assoc] in *.
    destruct (String.eqb a b); [injection E as <-; exists o; auto|]. apply (IH os' F' E).
  Qed.

  (** a container: all its fields have the contents of their terms *)
  Definition has (l : list (string * term)) (r : Rank) (f : fields V) : Prop :=
    forall a t, assoc l a = Some t -> exists o, getattr f a = Some o /\ what o = cont t r.

  Lemma make_ok l : Forall valid (map snd l) -> forall done s, Inv DD done s -> In G0 done ->
    exists n f s' done', runs net (fun r => make cart (comp r) round l (s r)) n (fun r => (f r, s' r)) /\
      Inv DD done' s' /\ In G0 done' /\ forall r, has l r (f r).
  Proof.
    intros Vd done s H G. destruct (r_reads net comp round init cart _ Vd done s H G) as (n & out & s' & d' & R & I' & Inc & _ & _ & Q).
    exists (n + 0)%nat, (fun r => combine (map fst l) (out r)), s', d'. split.
    - unfold make, mbind. apply (runs_bind net _ n (fun r => (out r, s' r))); [exact R|]. apply Done. reflexivity.
    - split; [exact I'|]. split; [apply Inc, G|]. intros r a t E.
      destruct (getattr_combine l _ (out r) a t (Q r) E) as (o & Eo & o' & -> & W & _). exists o'. auto.
  Qed.

  Lemma valid_dec l : forallb (fun t => match t with cos_sg i | sin_sg i => (i <? 9)%nat | _ => true end) l = true -> Forall valid l.
  Proof.
    intros H. rewrite Forall_forall. intros t Ht. rewrite forallb_forall in H. specialize (H t Ht).
    destruct t; cbn; auto; apply Nat.ltb_lt; exact H.
  Qed.

  (** reading [ts] first, then building *)
  Lemma after_ok {A} ts (build : Rank -> M V A) (P : Rank -> A -> Prop) : Forall valid ts ->
    (forall done s, Inv DD done s -> In G0 done ->
       exists n f s' done', runs net (fun r => build r (s r)) n (fun r => (f r, s' r)) /\ Inv DD done' s' /\ In G0 done' /\ forall r, P r (f r)) ->
    exists n f, runs net (after cart comp round init ts build) n f /\ forall r, P r (f r).
  Proof.
    intros Vd B. destruct (r_reads net comp round init cart ts Vd [G0] _ (fresh_inv net comp round init cart) (or_introl eq_refl))
      as (n1 & out & s1 & d1 & R1 & I1 & Inc & _ & _ & _).
    destruct (B d1 s1 I1 (Inc _ (or_introl eq_refl))) as (n2 & f & s2 & d2 & R2 & _ & _ & Q).
    exists (n1 + (n2 + 0))%nat, f. split; [|exact Q]. unfold after.
    apply (runs_bind net _ n1 (fun r => (out r, s1 r))); [exact R1|]. cbn [fst snd].
    apply (runs_bind net _ n2 (fun r => (f r, s2 r))); [exact R2|]. apply Done. reflexivity.
  Qed.

  (** Whatever was read before: every property of a GridData is the metric term of that name. *)
  Theorem C95_grid_data ts : Forall valid ts ->
    exists n g, runs net (after cart comp round init ts (fun r => new_grid_data cart (comp r) round)) n g /\
      forall r t, In t grid_terms -> exists o, property (g r) (grid_name t) = Some o /\ is_term t r (what o).
  Proof.
    intros Vd. apply (after_ok ts _ (fun r g => forall t, In t grid_terms -> exists o, property g (grid_name t) = Some o /\ is_term t r (what o)) Vd).
    intros done s H G.
    destruct (make_ok horizontal (valid_dec (map snd horizontal) eq_refl) done s H G) as (n1 & f1 & s1 & d1 & R1 & I1 & G1 & H1).
    destruct (make_ok vertical (valid_dec (map snd vertical) eq_refl) d1 s1 I1 G1) as (n2 & f2 & s2 & d2 & R2 & I2 & G2 & H2).
    destruct (make_ok contravariant (valid_dec (map snd contravariant) eq_refl) d2 s2 I2 G2) as (n3 & f3 & s3 & d3 & R3 & I3 & G3 & H3).
    destruct (make_ok angle (valid_dec (map snd angle) eq_refl) d3 s3 I3 G3) as (n4 & f4 & s4 & d4 & R4 & I4 & G4 & H4).
    exists (n1 + (n2 + (n3 + (n4 + 0))))%nat, (fun r => GridData (f1 r) (f2 r) (f3 r) (f4 r)), s4, d4.
    split; [|split; [exact I4|split; [exact G4|]]].
    - unfold new_grid_data, mbind.
      apply (runs_bind net _ n1 (fun r => (f1 r, s1 r))); [exact R1|]. cbn [fst snd].
      apply (runs_bind net _ n2 (fun r => (f2 r, s2 r))); [exact R2|]. cbn [fst snd].
      apply (runs_bind net _ n3 (fun r => (f3 r, s3 r))); [exact R3|]. cbn [fst snd].
      apply (runs_bind net _ n4 (fun r => (f4 r, s4 r))); [exact R4|]. apply Done. reflexivity.
    - intros r t It.
      assert (Vt : valid t) by (assert (Vg : Forall valid grid_terms) by (apply valid_dec; reflexivity); rewrite Forall_forall in Vg; auto).
      assert (F : exists l p b, assoc properties (grid_name t) = Some (p, b) /\ assoc l b = Some t /\
        has l r (part_data (GridData (f1 r) (f2 r) (f3 r) (f4 r)) p)).
      { cbn [grid_terms map seq List.app In] in It.
        repeat (destruct It as [<-|It]; [first
          [exists horizontal; do 2 eexists; split; [reflexivity|]; split; [reflexivity|]; exact (H1 r)
          |exists vertical; do 2 eexists; split; [reflexivity|]; split; [reflexivity|]; exact (H2 r)
          |exists contravariant; do 2 eexists; split; [reflexivity|]; split; [reflexivity|]; exact (H3 r)
          |exists angle; do 2 eexists; split; [reflexivity|]; split; [reflexivity|]; exact (H4 r)]|]).
        destruct It. }
      destruct F as (l & p & b & E1 & E2 & Hs). destruct (Hs b t E2) as (o & Eo & W).
      exists o. unfold property. rewrite E1. split; [exact Eo|]. rewrite W. apply content_is, Vt.
  Qed.

  (** ... and every field of a DampingCoefficients. *)
  Theorem C95_damping ts : Forall valid ts ->
    exists n g, runs net (after cart comp round init ts (fun r => make cart (comp r) round damping)) n g /\
      forall r t, In t damping_terms -> exists o, getattr (g r) (called t) = Some o /\ is_term t r (what o).
  Proof.
    intros Vd. apply (after_ok ts _ (fun r g => forall t, In t damping_terms -> exists o, getattr g (called t) = Some o /\ is_term t r (what o)) Vd).
    intros done s H G. destruct (make_ok damping (valid_dec (map snd damping) eq_refl) done s H G) as (n1 & f1 & s1 & d1 & R1 & I1 & G1 & H1).
    exists n1, f1, s1, d1. split; [exact R1|]. split; [exact I1|]. split; [exact G1|].
    intros r t It. assert (E : assoc damping (called t) = Some t /\ valid t).
    { cbn [damping_terms In] in It. repeat (destruct It as [<-|It]; [split; [reflexivity|exact Logic.I]|]). destruct It. }
    destruct E as [E Vt]. destruct (H1 r _ _ E) as (o & Eo & W). exists o. split; [exact Eo|]. rewrite W. apply content_is, Vt.
  Qed.

  (** component [i] of a vector quantity *)
  Definition component_of (r : Rank) (i : nat) (w v : value V) : Prop :=
    dims v = firstn 2 (dims w) /\ units v = units w /\ data v = comp r "split" i [data w].

  (** A DriverGridData has the components of vlon, es1 and ew2 and the edge factors; its vlat1, vlat2, vlat3 are the components of vlon. *)
  Theorem C95_driver ts : Forall valid ts ->
    exists n g, runs net (after cart comp round init ts (fun r => new_driver_grid_data cart (comp r) round)) n g /\
      forall r,
      (forall t, In t [edge_vect_w; edge_vect_e; edge_vect_s; edge_vect_n] -> exists v, assoc (g r) (called t) = Some v /\ is_term t r v) /\
      (forall i t name, (i < 3)%nat -> In (t, name) [(vlon, "vlon"); (es1, "es1_"); (ew2, "ew2_"); (vlon, "vlat")] ->
         exists v w, assoc (g r) (name ++ digit (S i)) = Some v /\ is_term t r w /\ component_of r i w v).
  Proof.
    intros Vd. apply (after_ok ts _ (fun r g =>
      (forall t, In t [edge_vect_w; edge_vect_e; edge_vect_s; edge_vect_n] -> exists v, assoc g (called t) = Some v /\ is_term t r v) /\
      (forall i t name, (i < 3)%nat -> In (t, name) [(vlon, "vlon"); (es1, "es1_"); (ew2, "ew2_"); (vlon, "vlat")] ->
         exists v w, assoc g (name ++ digit (S i)) = Some v /\ is_term t r w /\ component_of r i w v)) Vd).
    intros done s H G. destruct (make_ok driver_terms (valid_dec (map snd driver_terms) eq_refl) done s H G) as (n1 & f1 & s1 & d1 & R1 & I1 & G1 & H1).
    exists (n1 + 0)%nat, (fun r => new_from_grid_variables (comp r) (f1 r)), s1, d1. split.
    { unfold new_driver_grid_data, mbind. apply (runs_bind net _ n1 (fun r => (f1 r, s1 r))); [exact R1|]. apply Done. reflexivity. }
    split; [exact I1|]. split; [exact G1|]. intros r.
    destruct (H1 r "vlon" vlon eq_refl) as (o1 & E1 & W1). destruct (H1 r "vlat" vlon eq_refl) as (o2 & E2 & W2).
    destruct (H1 r "es1" es1 eq_refl) as (o3 & E3 & W3). destruct (H1 r "ew2" ew2 eq_refl) as (o4 & E4 & W4).
    destruct (H1 r "edge_vect_w" edge_vect_w eq_refl) as (o5 & E5 & W5). destruct (H1 r "edge_vect_e" edge_vect_e eq_refl) as (o6 & E6 & W6).
    destruct (H1 r "edge_vect_s" edge_vect_s eq_refl) as (o7 & E7 & W7). destruct (H1 r "edge_vect_n" edge_vect_n eq_refl) as (o8 & E8 & W8).
    assert (Eg : new_from_grid_variables (comp r) (f1 r) =
      (combine ["vlon1"; "vlon2"; "vlon3"] (split (comp r) o1) ++ combine ["vlat1"; "vlat2"; "vlat3"] (split (comp r) o2) ++
       combine ["es1_1"; "es1_2"; "es1_3"] (split (comp r) o3) ++ combine ["ew2_1"; "ew2_2"; "ew2_3"] (split (comp r) o4) ++
       [("edge_vect_w", what o5); ("edge_vect_e", what o6); ("edge_vect_s", what o7); ("edge_vect_n", what o8)])%list).
    { unfold new_from_grid_variables, three, one. rewrite E1, E2, E3, E4, E5, E6, E7, E8. reflexivity. }
    rewrite Eg. split.
    - intros t [<-|[<-|[<-|[<-|[]]]]]; eexists; (split; [reflexivity|]); [rewrite W5|rewrite W6|rewrite W7|rewrite W8]; apply content_is; exact Logic.I.
    - intros i t name Hi [E|[E|[E|[E|[]]]]]; injection E as <- <-.
      + exists (nth i (split (comp r) o1) (what o1)), (what o1).
        split; [destruct i as [|[|[|i]]]; [reflexivity|reflexivity|reflexivity|lia]|]. split; [rewrite W1; apply content_is; exact Logic.I|].
        unfold component_of. rewrite W1. destruct i as [|[|[|i]]]; [| | |lia]; cbn [split nth map seq dims units data]; rewrite W1; repeat split; reflexivity.
      + exists (nth i (split (comp r) o3) (what o3)), (what o3).
        split; [destruct i as [|[|[|i]]]; [reflexivity|reflexivity|reflexivity|lia]|]. split; [rewrite W3; apply content_is; exact Logic.I|].
        unfold component_of. rewrite W3. destruct i as [|[|[|i]]]; [| | |lia]; cbn [split nth map seq dims units data]; rewrite W3; repeat split; reflexivity.
      + exists (nth i (split (comp r) o4) (what o4)), (what o4).
        split; [destruct i as [|[|[|i]]]; [reflexivity|reflexivity|reflexivity|lia]|]. split; [rewrite W4; apply content_is; exact Logic.I|].
        unfold component_of. rewrite W4. destruct i as [|[|[|i]]]; [| | |lia]; cbn [split nth map seq dims units data]; rewrite W4; repeat split; reflexivity.
      + exists (nth i (split (comp r) o2) (what o2)), (what o2).
        split; [destruct i as [|[|[|i]]]; [reflexivity|reflexivity|reflexivity|lia]|]. split; [rewrite W2; apply content_is; exact Logic.I|].
        unfold component_of. rewrite W2. destruct i as [|[|[|i]]]; [| | |lia]; cbn [split nth map seq dims units data]; rewrite W2; repeat split; reflexivity.
  Qed.

  (** a term has one content *)
  Lemma is_term_unique t r v w : is_term t r v -> is_term t r w -> v = w.
  Proof.
    intros (m & solo & o & R & E & <-) (m' & solo' & o' & R' & E' & <-).
    destruct (runs_det net net_ext _ _ _ _ _ R R' r) as [_ X]. congruence.
  Qed.
End Props.
Print Assumptions C95_grid_data.
Print Assumptions C95_damping.
Print Assumptions C95_driver.

(** the vlat1 of a DriverGridData is not the first component of vlat *)
Theorem C95_driver_refuted :
  exists n g, runs swap_net (after false text_comp (fun x => x) text_init [] (fun r => new_driver_grid_data false (text_comp r) (fun x => x))) n g /\
    forall v w, assoc (g true) "vlat1" = Some v -> is_term swap_net false text_comp (fun x => x) text_init vlat true w ->
      ~ component_of text_comp true 0 w v.
Proof.
  destruct (C95_driver swap_net false text_comp (fun x => x) text_init [] (Forall_nil _)) as (n & g & R & Q).
  exists n, g. split; [exact R|]. intros v w Ev Tw (_ & _ & Dt).
  destruct (Q true) as [_ Q2]. destruct (Q2 0%nat vlon "vlat" ltac:(lia) ltac:(cbn; tauto)) as (v' & w' & Ev' & Tw' & (_ & _ & Dt')).
  cbn [append digit nth] in Ev'. rewrite Ev in Ev'. injection Ev' as <-.
  rewrite (is_term_unique swap_net swap_ext false text_comp (fun x => x) text_init _ _ _ _ Tw (content_is swap_net false text_comp (fun x => x) text_init vlat true Logic.I)) in Dt.
  rewrite (is_term_unique swap_net swap_ext false text_comp (fun x => x) text_init _ _ _ _ Tw' (content_is swap_net false text_comp (fun x => x) text_init vlon true Logic.I)) in Dt'.
  rewrite Dt in Dt'. vm_compute in Dt'. discriminate Dt'.
Qed.
Print Assumptions C95_driver_refuted.

Example C95_case : Forall valid [da_max; sin_sg 8] /\
  exists n g, runs swap_net (after false text_comp (fun x => x) text_init [da_max; sin_sg 8] (fun r => new_grid_data false (text_comp r) (fun x => x))) n g /\
    exists o, property (g false) "rdya" = Some o /\ dims (what o) = [I; J] /\
      data (what o) = "reciprocal0(dxdy_agrid_abs1(dxdy_agrid0(_grid_64+),dxdy_agrid1(_grid_64+)))".
Proof.
  assert (Vd : Forall valid [da_max; sin_sg 8]) by (repeat constructor; cbn; lia). split; [exact Vd|].
  destruct (C95_grid_data swap_net false text_comp (fun x => x) text_init _ Vd) as (n & g & R & Q). exists n, g. split; [exact R|].
  destruct (Q false rdya) as (o & E & T); [cbn; tauto|]. exists o. split; [exact E|].
  rewrite (is_term_unique swap_net swap_ext false text_comp (fun x => x) text_init _ _ _ _ T (content_is swap_net false text_comp (fun x => x) text_init rdya false Logic.I)).
  vm_compute. split; reflexivity.
Qed.
