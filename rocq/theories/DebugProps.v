(** C49: debug dumps are never overwritten. *)
From Verif Require Import Base Dict DebugModel.
Local Open Scope nat_scope.
Local Open Scope string_scope.

Section Proofs.
  Variable saved tracked : string -> bool.
  Local Notation exec := (exec saved tracked).
  Local Notation track_data := (track_data tracked).

  (** ** tracked parameters *)
  (** every track file written so far has a number below the counter of its parameter *)
  Definition tracks_ok (s : dbg) : Prop :=
    NoDup (filter is_track (written s)) /\ forall c n src b, In (Track c n src b) (written s) -> c < count_of (track_count s) n.

  Lemma count_put d n v m : count_of (put d n v) m = if (m =? n)%string then v else count_of d m.
  Proof. unfold count_of. rewrite get_put. now destruct (m =? n)%string. Qed.

  Lemma save_tracks s n b : tracks_ok s -> tracks_ok (save_as_dataset saved s n b).
  Proof.
    intros [N I]. unfold save_as_dataset. destruct (saved n); [|split; auto]. split; cbn; [exact N|].
    intros c m src b' [H|H]; [discriminate|eauto].
  Qed.
  Lemma track1_tracks s src b n : tracks_ok s -> tracks_ok (track1 tracked src b s n).
  Proof.
    intros [N I]. unfold track1. destruct (tracked n); [|split; auto]. split; cbn.
    - constructor; [|exact N]. intros H. apply filter_In in H. destruct H as [H _]. apply I in H. lia.
    - intros c m src' b' [H|H].
      + injection H as <- <- <- <-. rewrite count_put, String.eqb_refl. lia.
      + apply I in H. rewrite count_put. destruct (String.eqb_spec m n) as [->|]; lia.
  Qed.
  Lemma track_data_tracks args : forall s src b, tracks_ok s -> tracks_ok (track_data s args src b).
  Proof. unfold DebugModel.track_data. induction args as [|a args IH]; cbn; intros s src b H; auto. apply IH. now apply track1_tracks. Qed.
  Lemma exec_tracks p : forall s, tracks_ok s -> tracks_ok (fst (exec p s)).
  Proof.
    induction p as [ | |p IHp q IHq|p IHp|n args p IHp]; intros s H; cbn [DebugModel.exec]; auto.
    - specialize (IHp s H). destruct (exec p s) as [s1 r]. destruct r; [exact IHp|]. apply IHq. exact IHp.
    - specialize (IHp s H). destruct (exec p s) as [s1 r]. exact IHp.
    - set (s0 := track_data (save_as_dataset saved s n true) args n true).
      assert (H0 : tracks_ok s0) by (apply track_data_tracks, save_tracks, H).
      specialize (IHp s0 H0). destruct (exec p s0) as [s1 r]. destruct r; [exact IHp|].
      cbn [fst] in *. assert (T : tracks_ok (track_data (save_as_dataset saved s1 n false) args n false)) by (apply track_data_tracks, save_tracks, IHp).
      exact T.
  Qed.

  (** ** saved calls *)
  Definition saves (s : dbg) : list file := filter (fun f => negb (is_track f)) (written s).
  Lemma track_data_saves args : forall s src b, saves (track_data s args src b) = saves s /\ step (track_data s args src b) = step s.
  Proof.
    unfold DebugModel.track_data. induction args as [|a args IH]; cbn; intros s src b; auto.
    destruct (IH (track1 tracked src b s a) src b) as [A B]. rewrite A, B. unfold track1. destruct (tracked a); auto.
  Qed.
  Definition between (lo hi : nat) (f : file) : Prop := match f with Save k _ _ _ => lo <= k < hi | Track _ _ _ _ => False end.
  Definition named (P : string -> Prop) (f : file) : Prop := match f with Save _ n _ _ => P n | Track _ _ _ _ => False end.

  Lemma exec_saves p : quiet p -> no_recursion p -> forall s, exists new,
    snd (exec p s) = false /\ saves (fst (exec p s)) = (new ++ saves s)%list /\ NoDup new /\
    step s <= step (fst (exec p s)) /\
    (forall f, In f new -> between (step s) (step (fst (exec p s))) f /\ named (calls p) f) /\
    length (filter (is_save true) new) = n_saved saved p /\ length (filter (is_save false) new) = n_saved saved p.
  Proof.
    induction p as [ | |p IHp q IHq|p IHp|n args p IHp]; cbn [quiet no_recursion DebugModel.exec]; intros Qp Rp s.
    - exists []. cbn. repeat split; auto; try constructor; try tauto.
    - tauto.
    - destruct Qp as [Q1 Q2], Rp as [R1 R2]. destruct (IHp Q1 R1 s) as (l1 & E1 & S1 & N1 & L1 & B1 & I1 & O1).
      destruct (exec p s) as [s1 r1]. cbn [fst snd] in *. subst r1.
      destruct (IHq Q2 R2 s1) as (l2 & E2 & S2 & N2 & L2 & B2 & I2 & O2).
      exists (l2 ++ l1)%list. split; [exact E2|]. split; [now rewrite S2, S1, app_assoc|]. split; [|split; [lia|split; [|split]]].
      + clear -N1 N2 B1 B2. induction N2 as [|f l2 Hf N2 IH]; cbn; [exact N1|]. constructor.
        * rewrite in_app_iff. intros [H|H]; [contradiction|]. apply B1 in H. destruct H as [H _].
          destruct (B2 f (or_introl eq_refl)) as [K _]. destruct f; cbn in *; [lia|tauto].
        * apply IH. intros g Hg. apply B2. now right.
      + intros f H. apply in_app_or in H. destruct H as [H|H].
        * destruct (B2 f H) as [K1 K2]. split; [destruct f; cbn in *; [lia|tauto]|destruct f; cbn in *; tauto].
        * destruct (B1 f H) as [K1 K2]. split; [destruct f; cbn in *; [lia|tauto]|destruct f; cbn in *; tauto].
      + rewrite filter_app, app_length. cbn [n_saved]. lia.
      + rewrite filter_app, app_length. cbn [n_saved]. lia.
    - destruct (IHp Qp Rp s) as (l1 & E1 & S1 & N1 & L1 & B1 & I1 & O1). destruct (exec p s) as [s1 r1]. cbn [fst snd] in *.
      exists l1. auto 10.
    - destruct Rp as [Rn Rp]. set (s0 := track_data (save_as_dataset saved s n true) args n true).
      destruct (IHp Qp Rp s0) as (l1 & E1 & S1 & N1 & L1 & B1 & I1 & O1). destruct (exec p s0) as [s1 r1]. cbn [fst snd] in *. subst r1.
      set (s2 := track_data (save_as_dataset saved s1 n false) args n false). cbn [fst snd].
      change (saves (increment_call_count s2 n)) with (saves s2). change (step (increment_call_count s2 n)) with (step s2).
      destruct (track_data_saves args (save_as_dataset saved s n true) n true) as [A0 B0]. fold s0 in A0, B0.
      destruct (track_data_saves args (save_as_dataset saved s1 n false) n false) as [A2 B2]. fold s2 in A2, B2.
      rewrite A2, B2. unfold save_as_dataset in *. cbn [n_saved]. destruct (saved n).
      + unfold saves in A0. cbn in A0, B0. fold (saves s) in A0. rewrite B0 in *.
        set (out := Save (step s1) n (count_of (calls_count s1) n) false).
        set (inn := Save (step s) n (count_of (calls_count s) n) true) in *.
        exists (out :: l1 ++ [inn])%list. split; [reflexivity|]. split; [|split; [|split; [|split; [|split]]]].
        * unfold saves at 1. cbn. fold out. fold (saves s1). rewrite S1. unfold saves at 1. rewrite A0.
          now rewrite <- app_assoc.
        * constructor.
          -- rewrite in_app_iff. intros [H|[H|[]]].
             ++ apply B1 in H. cbn in H. lia.
             ++ unfold inn, out in H. discriminate.
          -- apply NoDup_rev in N1. rewrite <- (rev_involutive (l1 ++ [inn])). apply NoDup_rev. rewrite rev_app_distr. cbn.
             constructor; [|exact N1]. rewrite <- in_rev. intros H. apply B1 in H. cbn in H. tauto.
        * cbn. lia.
        * cbn [step]. intros f [<-|H]; [cbn; split; [lia|now left]|]. apply in_app_or in H. destruct H as [H|[<-|[]]].
          -- destruct (B1 f H) as [K1 K2]. split; [destruct f; cbn in *; [lia|tauto]|destruct f; cbn in *; tauto].
          -- cbn. split; [lia|now left].
        * cbn [filter is_save out Bool.eqb]. rewrite filter_app, app_length. cbn. lia.
        * cbn [filter is_save out Bool.eqb length]. rewrite filter_app, app_length. cbn. lia.
      + exists l1. rewrite B0 in *. split; [reflexivity|]. split; [unfold saves in *; rewrite S1, A0; reflexivity|]. split; [exact N1|].
        split; [exact L1|]. split; [|cbn; auto].
        intros f H. destruct (B1 f H) as [K1 K2]. split; [exact K1|]. destruct f; cbn in *; tauto.
  Qed.
End Proofs.

(** Partial: when no exception escapes an instrumented function and no instrumented function is active twice, every call of a
    saved function writes one In and one Out file, and no file is written twice.  Missing: recursion and exceptions; see the
    refutation. *)
Theorem C49_saves_partial : forall saved tracked p, quiet p -> no_recursion p ->
  let files := filter (fun f => negb (is_track f)) (written (fst (exec saved tracked p begin))) in
  NoDup files /\ length (filter (is_save true) files) = n_saved saved p /\ length (filter (is_save false) files) = n_saved saved p.
Proof.
  intros saved tracked p Q R. destruct (exec_saves saved tracked p Q R begin) as (l & _ & S & N & _ & _ & I & O).
  cbv zeta. unfold saves in S. rewrite S. cbn. rewrite app_nil_r. auto.
Qed.
Print Assumptions C49_saves_partial.
Example C49_case :
  let f := Call "f" ["a"; "b"] Skip in
  let p := Seq (Call "g" ["a"] (Seq f (Seq f (Call "h" [] f)))) (Call "g" ["a"] f) in
  quiet p /\ no_recursion p /\ n_saved (fun _ => true) p = 7.
Proof. cbn. intuition discriminate. Qed.

(** The files of a function are numbered by its calls: with the same restrictions, the k-th completed call of a saved function has number
    k in its In and in its Out file (numbers of the files, latest first). *)
Fixpoint n_calls (n : string) (p : prog) : nat :=
  match p with
  | Skip | Raise => 0
  | Seq p q => n_calls n p + n_calls n q
  | Try p => n_calls n p
  | Call m _ p => (if m =? n then 1 else 0)%string + n_calls n p
  end.
Definition numbers (n : string) (is_in : bool) (fs : list file) : list nat :=
  flat_map (fun f => match f with Save _ m c b => if ((m =? n)%string && Bool.eqb b is_in)%bool then [c] else [] | Track _ _ _ _ => [] end) fs.
Lemma numbers_not_called n p : ~ calls p n -> n_calls n p = 0.
Proof.
  induction p as [ | |p IHp q IHq|p IHp|m args p IHp]; cbn [calls n_calls]; intro H; auto.
  - rewrite IHp, IHq; tauto.
  - destruct (String.eqb_spec m n); [tauto|]. apply IHp. tauto.
Qed.
Lemma track_data_other tracked args : forall s src b n d, numbers n d (written (track_data tracked s args src b)) = numbers n d (written s) /\
  calls_count (track_data tracked s args src b) = calls_count s.
Proof.
  unfold track_data. induction args as [|a args IH]; cbn; intros s src b n d; auto.
  destruct (IH (track1 tracked src b s a) src b n d) as [A B]. rewrite A, B. unfold track1. destruct (tracked a); auto.
Qed.
Lemma exec_numbers saved tracked p : quiet p -> no_recursion p -> forall s n d, saved n = true ->
  snd (exec saved tracked p s) = false /\
  count_of (calls_count (fst (exec saved tracked p s))) n = count_of (calls_count s) n + n_calls n p /\
  numbers n d (written (fst (exec saved tracked p s))) = (rev (seq (count_of (calls_count s) n) (n_calls n p)) ++ numbers n d (written s))%list.
Proof.
  induction p as [ | |p IHp q IHq|p IHp|m args p IHp]; cbn [quiet no_recursion exec n_calls]; intros Q R s n d Sn.
  - cbn. auto.
  - tauto.
  - destruct Q as [Q1 Q2], R as [R1 R2]. destruct (IHp Q1 R1 s n d Sn) as (E1 & C1 & N1). destruct (exec saved tracked p s) as [s1 r1]. cbn [fst snd] in *. subst r1.
    destruct (IHq Q2 R2 s1 n d Sn) as (E2 & C2 & N2). split; [exact E2|]. split; [rewrite C2, C1; lia|].
    rewrite N2, N1, C1, seq_app, rev_app_distr, app_assoc. reflexivity.
  - destruct (IHp Q R s n d Sn) as (E1 & C1 & N1). destruct (exec saved tracked p s) as [s1 r1]. cbn [fst snd] in *. auto.
  - destruct R as [Rm R]. set (s0 := track_data tracked (save_as_dataset saved s m true) args m true).
    destruct (IHp Q R s0 n d Sn) as (E1 & C1 & N1). destruct (exec saved tracked p s0) as [s1 r1]. cbn [fst snd] in *. subst r1. cbn [fst snd].
    set (s2 := track_data tracked (save_as_dataset saved s1 m false) args m false).
    destruct (track_data_other tracked args (save_as_dataset saved s m true) m true n d) as [A0 B0]. fold s0 in A0, B0.
    destruct (track_data_other tracked args (save_as_dataset saved s1 m false) m false n d) as [A2 B2]. fold s2 in A2, B2.
    assert (K0 : calls_count s0 = calls_count s) by (rewrite B0; unfold save_as_dataset; now destruct (saved m)).
    assert (K2 : calls_count s2 = calls_count s1) by (rewrite B2; unfold save_as_dataset; now destruct (saved m)).
    unfold increment_call_count. cbn [calls_count written]. rewrite count_put, K2. rewrite K0 in C1, N1.
    split; [reflexivity|]. destruct (String.eqb_spec n m) as [<-|Nm].
    + rewrite (numbers_not_called n p Rm) in C1, N1. rewrite (numbers_not_called n p Rm), String.eqb_refl.
      rewrite Nat.add_0_r in *. split; [rewrite C1; lia|]. cbn [seq rev app] in N1. rewrite A2. rewrite A0 in N1. unfold save_as_dataset in *. rewrite Sn in *.
      unfold numbers in *. cbn [flat_map written] in *. rewrite String.eqb_refl in *. cbn [andb] in *. rewrite C1, N1. cbn [Nat.add seq rev app].
      destruct d; reflexivity.
    + destruct (String.eqb_spec m n) as [E|_]; [congruence|]. cbn [Nat.add]. split; [exact C1|]. rewrite A2. rewrite A0 in N1.
      assert (W : forall s b, numbers n d (written (save_as_dataset saved s m b)) = numbers n d (written s)).
      { intros s' b. unfold save_as_dataset. destruct (saved m); [|reflexivity]. unfold numbers. cbn [flat_map written].
        destruct (String.eqb_spec m n); [congruence|reflexivity]. }
      rewrite W in *. exact N1.
Qed.
Theorem C49_call_numbers_partial : forall saved tracked p n is_in, quiet p -> no_recursion p -> saved n = true ->
  numbers n is_in (written (fst (exec saved tracked p begin))) = rev (seq 0 (n_calls n p)).
Proof.
  intros saved tracked p n d Q R S. destruct (exec_numbers saved tracked p Q R begin n d S) as (_ & _ & ->). cbn. now rewrite app_nil_r.
Qed.
Print Assumptions C49_call_numbers_partial.

(** Out files are numbered 0, 1, 2, ... in the order they are written, whatever is called and raised. *)
Definition out_steps (l : list file) : list nat := flat_map (fun f => match f with Save k _ _ false => [k] | _ => [] end) l.
Lemma track_data_steps tracked args : forall s source is_in,
  step (track_data tracked s args source is_in) = step s /\ out_steps (written (track_data tracked s args source is_in)) = out_steps (written s).
Proof.
  unfold track_data. induction args as [|a args IH]; intros s source is_in; cbn [fold_left]; [auto|].
  destruct (IH (track1 tracked source is_in s a) source is_in) as [-> ->]. unfold track1. destruct (tracked a); auto.
Qed.
Lemma exec_steps saved tracked p : forall s, exists k,
  step (fst (exec saved tracked p s)) = step s + k /\
  out_steps (written (fst (exec saved tracked p s))) = (rev (seq (step s) k) ++ out_steps (written s))%list.
Proof.
  induction p as [| |p IHp q IHq|p IHp|m args p IHp]; intros s; cbn [exec].
  - exists 0. cbn. rewrite Nat.add_0_r. auto.
  - exists 0. cbn. rewrite Nat.add_0_r. auto.
  - destruct (IHp s) as (k & A & B). destruct (exec saved tracked p s) as [s1 r]. cbn [fst] in *. destruct r; [exists k; auto|].
    destruct (IHq s1) as (j & C & D). exists (k + j). rewrite D, C, A, B, seq_app, rev_app_distr, app_assoc, Nat.add_assoc. auto.
  - destruct (IHp s) as (k & A & B). destruct (exec saved tracked p s) as [s1 r]. exists k. auto.
  - destruct (track_data_steps tracked args (save_as_dataset saved s m true) m true) as [A0 B0].
    set (s0 := track_data tracked (save_as_dataset saved s m true) args m true) in *.
    assert (X : step s0 = step s /\ out_steps (written s0) = out_steps (written s))
      by (rewrite A0, B0; unfold save_as_dataset; destruct (saved m); auto).
    destruct X as [X Y]. destruct (IHp s0) as (k & A & B). destruct (exec saved tracked p s0) as [s1 r]. cbn [fst] in *. rewrite X in *. rewrite Y in *.
    destruct r; [exists k; auto|]. cbn [fst]. unfold increment_call_count. cbn [step written].
    destruct (track_data_steps tracked args (save_as_dataset saved s1 m false) m false) as [A2 B2]. rewrite A2, B2.
    unfold save_as_dataset. destruct (saved m); cbn [step written]; [|exists k; auto].
    exists (k + 1). rewrite A. split; [lia|]. unfold out_steps in *. cbn [flat_map app]. rewrite B, seq_app, rev_app_distr. reflexivity.
Qed.
Theorem C49_steps : forall saved tracked p, exists k, out_steps (written (fst (exec saved tracked p begin))) = rev (seq 0 k).
Proof. intros saved tracked p. destruct (exec_steps saved tracked p begin) as (k & _ & E). exists k. rewrite E. cbn. apply app_nil_r. Qed.
Print Assumptions C49_steps.
Example C49_steps_case :
  out_steps (written (fst (exec (fun _ => true) (fun _ => false) (Seq (Try (Call "f" [] (Seq (Call "g" [] Skip) Raise))) (Call "f" [] Skip)) begin))) = [1; 0].
Proof. reflexivity. Qed.

(** Files of tracked parameters are never written twice: every program, with recursion and exceptions. *)
Theorem C49_tracks : forall saved tracked p, NoDup (filter is_track (written (fst (exec saved tracked p begin)))).
Proof.
  intros saved tracked p. apply exec_tracks. split; [constructor|]. cbn. tauto.
Qed.
Print Assumptions C49_tracks.
Example C49_tracks_case :
  filter is_track (written (fst (exec (fun _ => false) (fun n => n =? "a") (Seq (Try (Call "f" ["a"; "b"] (Call "f" ["a"] Raise))) (Call "f" ["a"] Skip)) begin))) =
  [Track 3 "a" "f" false; Track 2 "a" "f" true; Track 1 "a" "f" true; Track 0 "a" "f" true].
Proof. reflexivity. Qed.

(** Finding: a function that calls itself, or that is called again after it raised, overwrites its earlier In file. *)
Theorem C49_saves_refuted :
  (exists p, quiet p /\ ~ NoDup (written (fst (exec (fun _ => true) (fun _ => false) p begin)))) /\
  (exists p, no_recursion p /\ ~ NoDup (written (fst (exec (fun _ => true) (fun _ => false) p begin)))).
Proof.
  split.
  - exists (Call "f" [] (Call "f" [] Skip)). split; [cbn; auto|]. cbn. intros N.
    apply NoDup_cons_iff in N. destruct N as [_ N]. apply NoDup_cons_iff in N. destruct N as [_ N].
    apply NoDup_cons_iff in N. destruct N as [N _]. apply N. now left.
  - exists (Seq (Try (Call "f" [] Raise)) (Call "f" [] Skip)). split; [cbn; auto|]. cbn. intros N.
    apply NoDup_cons_iff in N. destruct N as [_ N]. apply NoDup_cons_iff in N. destruct N as [N _]. apply N. now left.
Qed.
Print Assumptions C49_saves_refuted.
