(** C67: snapshots keep every value in order; C68: validation compares the i-th call with the i-th reference. *)
From Verif Require Import Dict Base SnapModel.
From Coq Require Import Lia.
Open Scope list_scope.

Lemma len_append a b : String.length (a ++ b)%string = (String.length a + String.length b)%nat.
Proof. induction a as [|c a IH]; [reflexivity|]. cbn. rewrite IH. reflexivity. Qed.
Lemma append_inj a : forall b c, (a ++ c = b ++ c)%string -> a = b.
Proof.
  induction a as [|x a IH]; intros [|y b] c H; cbn in H.
  - reflexivity.
  - apply (f_equal String.length) in H. cbn in H. rewrite len_append in H. lia.
  - apply (f_equal String.length) in H. cbn in H. rewrite len_append in H. lia.
  - injection H as -> H. f_equal. exact (IH b c H).
Qed.

Section Snap.
  Context {V S : Type}.
  Variable shape : V -> S.
  Variable shape_eqb : S -> S -> bool.
  Hypothesis shape_eqb_ok : forall a b, shape_eqb a b = true <-> a = b.
  Notation dataset := (dataset shape shape_eqb).

  Definition entry {X} (d : dict (list X)) (k : string) : list X := match get d k with Some l => l | None => [] end.
  Lemma entry_append {X} (d : dict (list X)) k x k' : entry (append d k x) k' = if String.eqb k' k then entry d k ++ [x] else entry d k'.
  Proof. unfold entry, append. rewrite get_put. destruct (String.eqb k' k); reflexivity. Qed.
  Lemma append_keys {X Y} (d : dict (list X)) (e : dict (list Y)) k x y : keys d = keys e -> keys (append d k x) = keys (append e k y).
  Proof.
    intros H. unfold append. generalize (match get d k with Some l => l | None => [] end ++ [x]). generalize (match get e k with Some l => l | None => [] end ++ [y]).
    revert e H. induction d as [|[a l] d IH]; intros [|[b m] e] H u w; try discriminate; [reflexivity|]. cbn in H. injection H as -> H. cbn [put].
    destruct (String.eqb k b); cbn [keys map fst]; [f_equal; exact H|]. f_equal. exact (IH e H u w).
  Qed.

  (** invariant of the snapshots: same keys, no duplicates, nonempty lists *)
  Definition sane (s : snapshots V) : Prop :=
    keys (savepoints s) = keys (arrays s) /\ NoDup (keys (savepoints s)) /\ forall k, In k (keys (savepoints s)) <-> entry (savepoints s) k <> [].
  Lemma append_key {X} (d : dict (list X)) k x : NoDup (keys d) -> (forall k, In k (keys d) <-> entry d k <> []) ->
    NoDup (keys (append d k x)) /\ forall k', In k' (keys (append d k x)) <-> entry (append d k x) k' <> [].
  Proof.
    intros N H. split; [apply put_NoDup; exact N|]. intros k'. rewrite entry_append. rewrite <- get_some. unfold append. rewrite get_put.
    destruct (String.eqb_spec k' k) as [->|NE].
    - split; [intros _ E; destruct (entry d k); discriminate|eauto].
    - rewrite get_some. apply H.
  Qed.
  Lemma store_ok s sp name v : sane s -> sane (store s sp name v)
    /\ (forall k, entry (savepoints (store s sp name v)) k = entry (savepoints s) k ++ (if String.eqb k name then [sp] else []))
    /\ (forall k, entry (arrays (store s sp name v)) k = entry (arrays s) k ++ (if String.eqb k name then [v] else [])).
  Proof.
    intros (A & B & C). unfold store. cbn [savepoints arrays]. split; [|split].
    - destruct (append_key (savepoints s) name sp B C) as [P Q]. split; [|split; [exact P|exact Q]]. cbn [savepoints arrays]. apply append_keys. exact A.
    - intros k. rewrite entry_append. destruct (String.eqb_spec k name) as [->|]; [reflexivity|rewrite app_nil_r; reflexivity].
    - intros k. rewrite entry_append. destruct (String.eqb_spec k name) as [->|]; [reflexivity|rewrite app_nil_r; reflexivity].
  Qed.
  Lemma checkpoint_ok (h : Z -> V) sp kwargs : NoDup (keys kwargs) -> forall s, sane s ->
    let s' := fold_left (fun s kv => store s sp (fst kv) (h (snd kv))) kwargs s in
    sane s' /\ (forall k, entry (savepoints s') k = entry (savepoints s) k ++ map fst (match get kwargs k with Some p => [(sp, h p)] | None => [] end))
    /\ (forall k, entry (arrays s') k = entry (arrays s) k ++ map snd (match get kwargs k with Some p => [(sp, h p)] | None => [] end)).
  Proof.
    induction kwargs as [|[k p] kwargs IH]; intros N s Hs; cbn [fold_left].
    - split; [exact Hs|]. split; intros k; cbn; rewrite app_nil_r; reflexivity.
    - inversion N as [|? ? N1 N2]; subst. destruct (store_ok s sp k (h p) Hs) as (A & B & C). destruct (IH N2 _ A) as (D & F & G).
      cbn [fst snd] in *. split; [exact D|]. split; intros x; [rewrite F, B|rewrite G, C]; cbn [get]; destruct (String.eqb_spec x k) as [->|NE].
      + apply get_none in N1. rewrite N1. cbn. rewrite app_nil_r. reflexivity.
      + rewrite app_nil_r. reflexivity.
      + apply get_none in N1. rewrite N1. cbn. rewrite app_nil_r. reflexivity.
      + rewrite app_nil_r. reflexivity.
  Qed.
  (** Python keyword arguments have distinct names *)
  Definition proper (os : list (op V)) : Prop := Forall (fun o => match o with Checkpoint _ kw => NoDup (keys kw) | _ => True end) os.
  Lemma run_ok os : proper os -> forall h s, sane s -> let s' := snd (fold_left exec os (h, s)) in
    sane s' /\ (forall k, entry (savepoints s') k = entry (savepoints s) k ++ map fst (history h os k))
    /\ (forall k, entry (arrays s') k = entry (arrays s) k ++ map snd (history h os k)).
  Proof.
    induction 1 as [|o os P _ IH]; intros h s Hs; cbn [fold_left].
    - split; [exact Hs|]. split; intros k; cbn; rewrite app_nil_r; reflexivity.
    - destruct o as [p v|sp kw]; cbn [exec history]; [apply IH; exact Hs|].
      destruct (checkpoint_ok h sp kw P s Hs) as (A & B & C). destruct (IH h _ A) as (D & F & G).
      split; [exact D|]. split; intros k; [rewrite F, B|rewrite G, C]; rewrite map_app, app_assoc; reflexivity.
  Qed.

  Definition same_shape (l : list V) : Prop := forall v w, In v l -> In w l -> shape v = shape w.
  Lemma concatenate_ok l : l <> [] -> same_shape l -> concatenate shape shape_eqb l = Some l.
  Proof.
    intros H1 H2. destruct l as [|v l]; [congruence|]. cbn [concatenate]. replace (forallb _ l) with true; [reflexivity|]. symmetry. apply forallb_forall.
    intros w Hw. apply shape_eqb_ok. apply H2; [left; reflexivity|right; exact Hw].
  Qed.
  Definition dset (arr : dict (list V)) (sps : dict (list string)) (d : dict (dvar V)) : option (dict (dvar V)) :=
    fold_left (fun acc kv =>
      do d <- acc;
      let '(name, sps) := (kv : string * list string) in
      do data <- concatenate shape shape_eqb (entry arr name);
      Some (put (put d (name ++ "_savepoints")%string (Names ("sp_" ++ name)%string sps)) name (Data ("sp_" ++ name)%string data)))
      sps (Some d).
  Lemma dset_ok arr sps : NoDup (keys sps) -> (forall a b, In a (keys sps) -> In b (keys sps) -> b <> a ++ "_savepoints")%string ->
    (forall k, In k (keys sps) -> entry arr k <> [] /\ same_shape (entry arr k)) ->
    forall d, exists r, dset arr sps d = Some r
      /\ (forall k l, get sps k = Some l -> get r k = Some (Data ("sp_" ++ k)%string (entry arr k)) /\ get r (k ++ "_savepoints")%string = Some (Names ("sp_" ++ k)%string l))
      /\ (forall x, ~ In x (keys sps) -> (forall k, In k (keys sps) -> x <> k ++ "_savepoints")%string -> get r x = get d x).
  Proof.
    induction sps as [|[n l] sps IH]; intros N NC H d.
    - exists d. split; [reflexivity|]. split; [discriminate|reflexivity].
    - inversion N as [|? ? N1 N2]; subst. unfold dset. cbn [fold_left bind].
      destruct (H n ltac:(left; reflexivity)) as [H1 H2]. rewrite (concatenate_ok _ H1 H2). cbn [bind].
      destruct (IH N2 ltac:(intros a b Ha Hb; apply NC; right; assumption) ltac:(intros k Hk; apply H; right; exact Hk)
        (put (put d (n ++ "_savepoints")%string (Names ("sp_" ++ n)%string l)) n (Data ("sp_" ++ n)%string (entry arr n)))) as (r & R & A & B).
      exists r. split; [exact R|]. split.
      + intros k l' G. cbn [get] in G. destruct (String.eqb_spec k n) as [->|NE]; [|exact (A k l' G)]. injection G as ->. split.
        * rewrite B; [rewrite get_put, String.eqb_refl; reflexivity|exact N1|]. intros k Hk. apply NC; [right; exact Hk|left; reflexivity].
        * rewrite B.
          -- rewrite get_put. destruct (String.eqb_spec (n ++ "_savepoints")%string n) as [E|_]; [|rewrite get_put, String.eqb_refl; reflexivity].
             exfalso. apply (f_equal String.length) in E. rewrite len_append in E. cbn in E. lia.
          -- intros HI. apply (NC n (n ++ "_savepoints")%string); [left; reflexivity|right; exact HI|reflexivity].
          -- intros k Hk E. apply append_inj in E. subst. contradiction.
      + intros x X1 X2. rewrite B.
        * rewrite !get_put. destruct (String.eqb_spec x n) as [->|_]; [destruct X1; left; reflexivity|].
          destruct (String.eqb_spec x (n ++ "_savepoints")%string) as [->|_]; [destruct (X2 n ltac:(left; reflexivity)); reflexivity|reflexivity].
        * intros HI. apply X1. right. exact HI.
        * intros k Hk. apply X2. right. exact Hk.
  Qed.

  (** However the arrays are overwritten between the calls, the dataset holds for every variable ever passed the values it had
      at the calls, in their order, along with the names of the savepoints.  Missing for C67: variables one of which is named like another with
      "_savepoints" appended (refuted below), and arrays that change shape (the dataset then cannot be made, refuted below). *)
  Theorem C67_snapshots_partial h (os : list (op V)) : proper os ->
    (forall a b, history h os a <> [] -> history h os b <> [] -> b <> a ++ "_savepoints")%string ->
    (forall k, same_shape (map snd (history h os k))) ->
    exists d, dataset (snd (run h os)) = Some d /\
      forall k, history h os k <> [] ->
        get d k = Some (Data ("sp_" ++ k)%string (map snd (history h os k)))
        /\ get d (k ++ "_savepoints")%string = Some (Names ("sp_" ++ k)%string (map fst (history h os k))).
  Proof.
    intros P NC SS. assert (S0 : sane (mkSnap [] [])) by (split; [reflexivity|split; [constructor|intros k; split; [intros []|intros X; destruct X; reflexivity]]]).
    destruct (run_ok os P h _ S0) as ((K & N & NE) & A & B). fold (run h os) in *. set (s := snd (run h os)) in *.
    cbn [savepoints arrays] in A, B. unfold entry at 2 in A. unfold entry at 2 in B. cbn [get app] in A, B.
    assert (HK : forall k, In k (keys (savepoints s)) <-> history h os k <> []).
    { intros k. rewrite NE, A. destruct (history h os k); cbn; split; congruence. }
    destruct (dset_ok (arrays s) (savepoints s) N) with (d := @nil (string * dvar V)) as (r & R & C & _).
    - intros a b Ha Hb. apply NC; apply HK; assumption.
    - intros k Hk. rewrite B. apply HK in Hk. split; [destruct (history h os k); [congruence|discriminate]|apply SS].
    - exists r. split; [exact R|]. intros k Hk. apply HK in Hk. pose proof Hk as Hk'. apply get_some in Hk'. destruct Hk' as [l Hl].
      destruct (C k l Hl) as [D1 D2]. rewrite D1, D2, B, <- A. unfold entry. rewrite Hl. split; reflexivity.
  Qed.
End Snap.
Print Assumptions C67_snapshots_partial.

Definition shape0 (v : list Z) := List.length v.
(** the array of place 0 is overwritten between two calls *)
Definition case_ops : list (op (list Z)) := [Checkpoint "before" [("u", 0); ("q", 1)]%Z; Write 0 [7; 8]; Checkpoint "after" [("u", 0)]%Z]%string.
Definition case_heap (p : Z) : list Z := if p =? 0 then [1; 2] else [5].
Example C67_case : proper case_ops /\ history case_heap case_ops "u" = [("before", [1; 2]); ("after", [7; 8])]%string
  /\ dataset shape0 Nat.eqb (snd (run case_heap case_ops)) =
     Some [("u_savepoints", Names "sp_u" ["before"; "after"]); ("u", Data "sp_u" [[1; 2]; [7; 8]]); ("q_savepoints", Names "sp_q" ["before"]); ("q", Data "sp_q" [[5]])]%string.
Proof. split; [repeat constructor; cbn; intuition congruence|]. split; reflexivity. Qed.

(** A variable called like another one with "_savepoints" appended replaces the list of savepoints of that variable. *)
Theorem C67_names_refuted : exists (h : Z -> list Z) os d, proper os /\ dataset shape0 Nat.eqb (snd (run h os)) = Some d
  /\ map fst (history h os "u") = ["one"]%string /\ get d "u_savepoints" = Some (Data "sp_u_savepoints" [[1; 2]]).
Proof.
  exists case_heap, [Checkpoint "one" [("u", 0); ("u_savepoints", 0)]%Z]%string. eexists. split; [repeat constructor; cbn; intuition congruence|].
  split; [reflexivity|]. split; reflexivity.
Qed.
Print Assumptions C67_names_refuted.
(** One variable whose array changes shape between calls loses the snapshots of all variables. *)
Theorem C67_shape_refuted : exists (h : Z -> list Z) os, proper os /\ history h os "q" <> [] /\ dataset shape0 Nat.eqb (snd (run h os)) = None.
Proof.
  exists case_heap, [Checkpoint "one" [("u", 0); ("q", 1)]%Z; Write 0 [3]; Checkpoint "two" [("u", 0)]%Z]%string.
  split; [repeat constructor; cbn; intuition congruence|]. split; [discriminate|reflexivity].
Qed.
Print Assumptions C67_shape_refuted.

(** ** Validation *)
Section Validation.
  Context {V : Type}.
  Variable accepts : string -> string -> option (nat -> V -> bool).
  Variable n_thresholds : string -> option nat.
  Notation vrun := (vrun accepts n_thresholds).
  Notation vexec := (vexec accepts n_thresholds).

  (** the call passes iff there are thresholds and reference data for it and every array is accepted against reference [i] *)
  Definition passes (sp : string) (kwargs : dict V) (i : nat) : Prop :=
    (exists n, n_thresholds sp = Some n /\ i < n)%nat /\ forall name v, In (name, v) kwargs -> exists f, accepts sp name = Some f /\ f i v = true.
  Lemma verdict_ok sp kwargs i : verdict accepts n_thresholds sp kwargs i = true <-> passes sp kwargs i.
  Proof.
    unfold verdict, passes. destruct (n_thresholds sp) as [n|]; [|split; [discriminate|intros ((n & H & _) & _); discriminate]].
    rewrite andb_true_iff, Nat.ltb_lt, forallb_forall. split.
    - intros (L & H). split; [eauto|]. intros name v HI. specialize (H _ HI). cbn [fst snd] in H. destruct (accepts sp name) as [f|]; [eauto|discriminate].
    - intros ((n' & E0 & L) & HH). injection E0 as <-. split; [exact L|]. intros [name v] HI. destruct (HH name v HI) as (f & E & F). cbn [fst snd]. rewrite E. exact F.
  Qed.

  Lemma calls_rev (pre : list (vop V)) (o : vop V) sp : calls_before (rev (pre ++ [o])) sp = match o with Trial => 0%nat | Check sp' _ => ((if String.eqb sp sp' then 1 else 0) + calls_before (rev pre) sp)%nat end.
  Proof. rewrite rev_app_distr. destruct o; reflexivity. Qed.
  Lemma vrun_ok (os : list (vop V)) : forall pre n, (forall sp, counter n sp = calls_before (rev pre) sp) -> forall i sp kw,
    nth_error os i = Some (Check sp kw) -> (forall j, (j < i)%nat -> nth_error (vrun n os) j = Some true) ->
    exists b, nth_error (vrun n os) i = Some b /\ (b = true <-> passes sp kw (calls_before (rev (pre ++ firstn i os)) sp)).
  Proof.
    induction os as [|o os IH]; intros pre n Hn [|i] sp kw E Hj; cbn [nth_error] in E; try discriminate.
    - injection E as ->. cbn [SnapModel.vrun SnapModel.vexec]. exists (verdict accepts n_thresholds sp kw (counter n sp)). split.
      + destruct (verdict _ _ sp kw (counter n sp)); reflexivity.
      + rewrite verdict_ok, Hn. cbn [firstn]. rewrite app_nil_r. reflexivity.
    - cbn [SnapModel.vrun] in *. destruct (vexec n o) as [n' b] eqn:X. pose proof (Hj 0%nat ltac:(lia)) as B0. cbn [nth_error] in B0. injection B0 as ->.
      destruct (IH (pre ++ [o]) n') with (i := i) (sp := sp) (kw := kw) as (b & P & Q).
      + intros s. rewrite calls_rev. destruct o as [|sp' kw']; cbn [SnapModel.vexec] in X; [injection X as <-; reflexivity|].
        destruct (verdict _ _ sp' kw' (counter n sp')); [|discriminate]. injection X as <-. unfold counter at 1. rewrite get_put.
        destruct (String.eqb_spec s sp') as [->|]; [rewrite Hn; lia|]. rewrite <- Hn. reflexivity.
      + exact E.
      + intros j L. exact (Hj (S j) ltac:(lia)).
      + exists b. split; [exact P|]. rewrite Q, <- app_assoc. reflexivity.
  Qed.

  (** As long as no earlier call has failed, a call passes iff it is accepted against the reference for its place among the
      calls at this savepoint since the start of the trial.  Missing for C68: calls after a failure (refuted below). *)
  Theorem C68_validation_partial (os : list (vop V)) i sp kw : nth_error os i = Some (Check sp kw) ->
    (forall j, (j < i)%nat -> nth_error (vrun [] os) j = Some true) ->
    exists b, nth_error (vrun [] os) i = Some b /\ (b = true <-> passes sp kw (calls_before (rev (firstn i os)) sp)).
  Proof. intros E H. exact (vrun_ok os [] [] ltac:(reflexivity) i sp kw E H). Qed.
End Validation.
Print Assumptions C68_validation_partial.

(** the reference of the i-th call at any savepoint is the number i + 1 *)
Definition ref_accepts (sp name : string) : option (nat -> Z -> bool) := if String.eqb name "u" then Some (fun i v => v =? Z.of_nat i + 1) else None.
Definition run_u := vrun ref_accepts (fun _ => Some 3%nat).
Definition u (v : Z) : vop Z := Check "sp" [("u", v)]%string.
Example C68_case : run_u [] [u 1; Check "other" [("u", 1)]%string; u 2; Trial; u 1; u 5] = [true; true; true; true; true; false].
Proof. reflexivity. Qed.
(** After a call that failed, later calls are compared with the wrong reference: a run whose every later value is right fails
    from then on, and a wrong value passes. *)
Theorem C68_after_failure_refuted : exists os : list (vop Z), os = [u 1; u 7; u 3; u 2]
  /\ map (fun i => calls_before (rev (firstn i os)) "sp") [2; 3]%nat = [2; 3]%nat
  /\ passes ref_accepts (fun _ => Some 3%nat) "sp" [("u", 3)]%string 2 /\ ~ passes ref_accepts (fun _ => Some 3%nat) "sp" [("u", 2)]%string 3
  /\ run_u [] os = [true; false; false; true].
Proof.
  exists [u 1; u 7; u 3; u 2]. split; [reflexivity|]. split; [reflexivity|]. split; [|split; [|reflexivity]].
  - apply verdict_ok. reflexivity.
  - intros H. apply verdict_ok in H. discriminate.
Qed.
Print Assumptions C68_after_failure_refuted.
