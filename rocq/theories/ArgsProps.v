(** C44: a compiled program call never uses another call's arguments. *)
From Verif Require Import Base Dict ArgsModel.
Local Open Scope string_scope.

Section Proofs.
  Variable params : list string.
  Variable tuple_hash : list Z -> Z.
  Local Notation calls := (calls params tuple_hash).
  Local Notation marshal := (marshal params).
  Local Notation call_hash := (call_hash tuple_hash).
  Local Notation unhashable := (unhashable tuple_hash).
  Local Notation leader := (leader tuple_hash).
  Local Notation all_initial := (all_initial tuple_hash).

  Definition in_place (cs : list call) (e : exe) : Prop :=
    skip_hash e = unhashable cs /\
    (unhashable cs = false ->
     match cs with
     | [] => arguments e = Some [] /\ arguments_hash e = 0%Z
     | c :: _ => call_hash c = Some (arguments_hash e) /\
         arguments e = Some (if all_initial cs then [] else
                             match leader cs (arguments_hash e) with Some l => marshal l | None => [] end)
     end).

  Lemma unhashable_cons c cs : unhashable (c :: cs) = match call_hash c with None => true | _ => false end || unhashable cs.
  Proof. reflexivity. Qed.
  Lemma all_initial_cons c cs : all_initial (c :: cs) = match call_hash c with Some h => (h =? 0)%Z | None => false end && all_initial cs.
  Proof. reflexivity. Qed.

  Lemma calls_inv cs : in_place cs (fst (calls cs)) /\
    match cs with
    | [] => True
    | c :: _ => exists r rs, snd (calls cs) = r :: rs /\
        r = if unhashable cs then marshal c
            else if all_initial cs then []
            else match call_hash c with
                 | Some h => match leader cs h with Some l => marshal l | None => [] end
                 | None => []
                 end
    end.
  Proof.
    induction cs as [|c cs IH]; cbn [ArgsModel.calls]; [split; [split; [reflexivity|cbn; auto]|trivial]|].
    destruct IH as [IH _]. destruct (calls cs) as [e rs]. cbn [fst] in IH. destruct IH as (S & I).
    destruct (run_call params tuple_hash c e) as [e' r] eqn:E. cbn [fst snd]. unfold in_place.
    rewrite unhashable_cons, all_initial_cons. unfold run_call in E. rewrite S in E.
    destruct (unhashable cs) eqn:U.
    - cbn in E. injection E as <- <-. rewrite orb_true_r. cbn [skip_hash]. split; [split; [reflexivity|discriminate]|eauto].
    - specialize (I eq_refl). destruct (call_hash c) as [h0|] eqn:C.
      2: { cbn in E. injection E as <- <-. cbn [orb skip_hash]. split; [split; [reflexivity|discriminate]|eauto]. }
      cbn [orb]. cbn [ArgsModel.leader]. rewrite C. destruct cs as [|c' cs'].
      + destruct I as (Ea & Eh). rewrite Ea, Eh in E. cbn [ArgsModel.leader]. change (all_initial []) with true. rewrite andb_true_r.
        destruct (Z.eqb_spec h0 0) as [->|N]; injection E as <- <-; cbn [skip_hash arguments arguments_hash].
        * split; [split; [congruence|intros _; split; congruence]|eauto].
        * rewrite Z.eqb_refl. split; [split; [congruence|intros _; split; reflexivity]|eauto].
      + destruct I as (Ec & Ea). rewrite Ea in E.
        assert (L : exists l, leader (c' :: cs') (arguments_hash e) = Some l).
        { cbn [ArgsModel.leader]. rewrite Ec, Z.eqb_refl. destruct (leader cs' _); eauto. }
        destruct L as [l L].
        assert (A0 : all_initial (c' :: cs') = true -> arguments_hash e = 0%Z).
        { rewrite all_initial_cons, Ec. intros A. apply andb_true_iff in A. destruct A as [A _]. now apply Z.eqb_eq in A. }
        destruct (Z.eqb_spec h0 (arguments_hash e)) as [->|N].
        * injection E as <- <-. rewrite Z.eqb_refl, L. rewrite L in Ea.
          assert (A : (arguments_hash e =? 0)%Z && all_initial (c' :: cs') = all_initial (c' :: cs')).
          { destruct (all_initial (c' :: cs')); [|now rewrite andb_false_r]. rewrite (A0 eq_refl). reflexivity. }
          rewrite A. split; [split; [congruence|intros _; split; auto]|]. do 2 eexists. split; [reflexivity|].
          change (match call_hash c' with Some h => (h =? 0)%Z | None => false end && all_initial cs') with (all_initial (c' :: cs')).
          destruct (all_initial (c' :: cs')); [reflexivity|].
          match goal with |- match ?x with _ => _ end = _ => change x with (leader (c' :: cs') (arguments_hash e)) end. now rewrite L.
        * injection E as <- <-. cbn [skip_hash arguments arguments_hash]. rewrite Z.eqb_refl.
          assert (L0 : leader (c' :: cs') h0 = None).
          { cbn [ArgsModel.leader]. rewrite Ec. destruct (Z.eqb_spec (arguments_hash e) h0); [congruence|reflexivity]. }
          rewrite L0.
          assert (A : (h0 =? 0)%Z && all_initial (c' :: cs') = false).
          { destruct (all_initial (c' :: cs')); [|now rewrite andb_false_r]. rewrite (A0 eq_refl) in N.
            destruct (Z.eqb_spec h0 0); [contradiction|reflexivity]. }
          rewrite A. split; [split; [congruence|intros _; split; auto]|eauto].
  Qed.

  Lemma leader_in cs h l : leader cs h = Some l -> In l cs /\ call_hash l = Some h.
  Proof.
    induction cs as [|c cs IH]; cbn; [discriminate|]. destruct (call_hash c) as [h'|] eqn:C; [|discriminate].
    destruct (Z.eqb_spec h' h) as [->|]; [|discriminate]. destruct (leader cs h) as [l'|].
    - intros [= <-]. destruct (IH eq_refl). auto.
    - intros [= <-]. auto.
  Qed.
  Lemma leader_some c cs h : call_hash c = Some h -> exists l, leader (c :: cs) h = Some l.
  Proof. intros C. cbn. rewrite C, Z.eqb_refl. destruct (leader cs h); eauto. Qed.
End Proofs.

(** What a call really runs on, for every sequence of calls (most recent first) and every tuple hash: its own arguments once
    some argument was unhashable; otherwise those of the first of the latest calls that have its hash in an unbroken row; and
    nothing at all as long as every call had hash 0. *)
Theorem C44_exact : forall params tuple_hash c cs, exists rs,
  snd (calls params tuple_hash (c :: cs)) =
  (if unhashable tuple_hash (c :: cs) then marshal params c
   else if all_initial tuple_hash (c :: cs) then []
   else match call_hash tuple_hash c with
        | Some h => match leader tuple_hash (c :: cs) h with Some l => marshal params l | None => [] end
        | None => []
        end) :: rs.
Proof.
  intros params th c cs. destruct (calls_inv params th (c :: cs)) as [_ (r & rs & E & ->)]. exists rs. exact E.
Qed.
Print Assumptions C44_exact.

(** Partial: a call runs on its own arguments if its hash is not 0 and no earlier call with the same hash had other arguments.
    Missing: calls that differ but have equal hashes; see the refutations. *)
Theorem C44_own_arguments_partial : forall params tuple_hash c cs,
  call_hash tuple_hash c <> Some 0%Z ->
  (forall c' h, In c' cs -> call_hash tuple_hash c = Some h -> call_hash tuple_hash c' = Some h -> marshal params c' = marshal params c) ->
  exists rs, snd (calls params tuple_hash (c :: cs)) = marshal params c :: rs.
Proof.
  intros params th c cs N U. destruct (C44_exact params th c cs) as [rs E]. rewrite E. exists rs. f_equal.
  destruct (unhashable th (c :: cs)) eqn:Uh; [reflexivity|]. rewrite all_initial_cons.
  destruct (call_hash th c) as [h|] eqn:C.
  - destruct (Z.eqb_spec h 0) as [->|Nh]; [congruence|]. cbn [andb].
    destruct (leader_some th c cs h C) as [l L]. rewrite L. apply leader_in in L. destruct L as [[<-|I] Hl]; [reflexivity|].
    eapply U; eauto.
  - rewrite unhashable_cons, C in Uh. discriminate.
Qed.
Print Assumptions C44_own_arguments_partial.

(** What "its own arguments" are: every parameter gets what was given for it, by position or by name - of an array its memory, of a State the
    current buffers of all its elements in order, of anything else the object. *)
Definition given (v : pyval) (x : carg) : Prop :=
  match v with VArr a l => x = Memory a l | VState es => exists l, x = Memories l /\ Forall2 (fun e a => exists i, e = (i, a)) es l | _ => x = Scalar v end.
Lemma to_c_given v : given v (to_c v).
Proof. destruct v; cbn; try reflexivity. eexists. split; [reflexivity|]. induction elems as [|[i a] es IH]; constructor; cbn; eauto. Qed.
Lemma get_combine_nth : forall ps (xs : list carg) rest i p x, NoDup ps -> nth_error ps i = Some p -> nth_error xs i = Some x -> get (combine ps xs ++ rest)%list p = Some x.
Proof.
  induction ps as [|q ps IH]; intros xs rest i p x N P X; [now destruct i|]. inversion N as [|? ? Nq Nps]; subst.
  destruct xs as [|y xs]; [now destruct i|]. cbn [combine app get fst snd]. destruct i; cbn in P, X.
  - injection P as ->. injection X as ->. now rewrite String.eqb_refl.
  - destruct (String.eqb_spec p q) as [->|]; [apply nth_error_In in P; contradiction|]. eapply IH; eauto.
Qed.
Theorem C44_given : forall params c p, NoDup params ->
  (forall i v, nth_error params i = Some p -> nth_error (pos c) i = Some v -> exists x, get (marshal params c) p = Some x /\ given v x) /\
  (forall v, ~ In p (firstn (length (pos c)) params) -> get (kw c) p = Some v -> exists x, get (marshal params c) p = Some x /\ given v x).
Proof.
  intros params c p N. split.
  - intros i v P X. exists (to_c v). split; [|apply to_c_given]. unfold marshal. eapply get_combine_nth; eauto. now apply map_nth_error.
  - intros v NI G. exists (to_c v). split; [|apply to_c_given]. unfold marshal. clear N. revert NI. generalize (pos c) as vs. induction params as [|q ps IH]; intros vs NI; cbn [combine app].
    + clear NI. revert G. generalize (kw c) as d. induction d as [|[k w] d ID]; cbn; [discriminate|]. destruct (String.eqb p k); [congruence|exact ID].
    + destruct vs as [|y vs]; cbn [map combine app].
      * clear NI IH. revert G. generalize (kw c) as d. induction d as [|[k w] d ID]; cbn; [discriminate|]. destruct (String.eqb p k); [congruence|exact ID].
      * cbn in NI. cbn [get fst snd]. destruct (String.eqb_spec p q) as [->|]; [tauto|]. apply IH. tauto.
Qed.
Print Assumptions C44_given.
Example C44_given_case : given (VState [(1, 64); (2, 72)]%Z) (Memories [64; 72]%Z).
Proof. eexists. split; [reflexivity|]. repeat constructor; eauto. Qed.

(** a hash under which the hypotheses hold: two calls on different fields alternating *)
Example C44_case :
  let th := fun hs => (1 + fold_left (fun a h => 1000 * a + h) hs 0)%Z in
  let f a n := mkCall [VArr a 3] [("n", VInt n)] in
  map (map snd) (snd (calls ["q"; "n"] th [f 64 5; f 72 5; f 64 5; f 64 5])) =
    [[Memory 64 3; Scalar (VInt 5)]; [Memory 72 3; Scalar (VInt 5)]; [Memory 64 3; Scalar (VInt 5)]; [Memory 64 3; Scalar (VInt 5)]]%Z.
Proof. reflexivity. Qed.

(** In particular a changed argument - positional or keyword - is seen: if the tuple hash tells the two tuples of hashes apart and is
    never 0, a call of which some argument has another hash than the argument in the same place of the call before runs on its own
    arguments. *)
Theorem C44_changed_argument : forall params tuple_hash c c' cs i v v' h h',
  (forall hs hs', tuple_hash hs = tuple_hash hs' -> hs = hs') -> (forall hs, tuple_hash hs <> 0%Z) ->
  nth_error (pos c ++ map snd (kw c)) i = Some v -> nth_error (pos c' ++ map snd (kw c')) i = Some v' ->
  hash_of tuple_hash v = Some h -> hash_of tuple_hash v' = Some h' -> h <> h' ->
  exists rs, snd (calls params tuple_hash (c :: c' :: cs)) = marshal params c :: rs.
Proof.
  intros params th c c' cs i v v' h h' INJ NZ Ni Ni' Hv Hv' D. destruct (C44_exact params th c (c' :: cs)) as [rs E]. rewrite E. exists rs. f_equal.
  destruct (unhashable th (c :: c' :: cs)) eqn:U; [reflexivity|]. rewrite all_initial_cons.
  assert (HS : forall vs hs j w, hashes th vs = Some hs -> nth_error vs j = Some w -> nth_error hs j = hash_of th w).
  { induction vs as [|x vs IH]; intros hs j w H N; [now destruct j|]. cbn [hashes] in H.
    destruct (hash_of th x) as [hx|] eqn:Hx; [|discriminate]. destruct (hashes th vs) as [hs'|]; [|discriminate]. injection H as <-.
    destruct j as [|j]; cbn in *; [injection N as <-; now rewrite Hx|]. now apply IH. }
  unfold call_hash at 1 2. rewrite !unhashable_cons in U. apply orb_false_iff in U. destruct U as [U1 U2]. apply orb_false_iff in U2. destruct U2 as [U2 _].
  unfold call_hash in U1, U2. destruct (hashes th (pos c ++ map snd (kw c))) as [hs|] eqn:Hc; [|discriminate].
  destruct (hashes th (pos c' ++ map snd (kw c'))) as [hs'|] eqn:Hc'; [|discriminate].
  destruct (Z.eqb_spec (th hs) 0) as [Z|_]; [now apply NZ in Z|]. cbn [andb leader]. unfold call_hash. rewrite Hc, Hc', Z.eqb_refl.
  destruct (Z.eqb_spec (th hs') (th hs)) as [Q|_]; [|reflexivity]. apply INJ in Q. subst hs'.
  pose proof (HS _ _ _ _ Hc Ni) as A. pose proof (HS _ _ _ _ Hc' Ni') as B. congruence.
Qed.
Print Assumptions C44_changed_argument.

(** An unhashable argument is always safe: from then on every call runs on its own arguments. *)
Theorem C44_unhashable_safe : forall params tuple_hash c cs c',
  In c' (c :: cs) -> call_hash tuple_hash c' = None -> exists rs, snd (calls params tuple_hash (c :: cs)) = marshal params c :: rs.
Proof.
  intros params th c cs c' I C. destruct (C44_exact params th c cs) as [rs E]. rewrite E. exists rs.
  replace (unhashable th (c :: cs)) with true; [reflexivity|]. symmetry. apply existsb_exists. exists c'. split; [exact I|]. now rewrite C.
Qed.
Print Assumptions C44_unhashable_safe.

(** Finding, for every tuple hash (nothing hashes to 0 here): the second of two calls runs on the arguments of the first when
    (1) the keyword arguments trade names, (2) an int changes from -1 to -2, (3) another view of the same memory is given,
    (4) the buffers of a State were swapped (State.update_move_memory). *)
Theorem C44_own_arguments_refuted : forall tuple_hash, (forall hs, tuple_hash hs <> 0%Z) ->
  (exists a b, let c1 := mkCall [] [("x", VArr a 0); ("y", VArr b 0)] in let c2 := mkCall [] [("y", VArr a 0); ("x", VArr b 0)] in
     exists rs, snd (calls ["x"; "y"] tuple_hash [c2; c1]) = marshal ["x"; "y"] c1 :: rs /\
       get (marshal ["x"; "y"] c1) "x" = Some (Memory a 0) /\ get (marshal ["x"; "y"] c2) "x" = Some (Memory b 0) /\ a <> b) /\
  (forall q, let c1 := mkCall [q; VInt (-1)] [] in let c2 := mkCall [q; VInt (-2)] [] in hash_of tuple_hash q <> None ->
     exists rs, snd (calls ["q"; "n"] tuple_hash [c2; c1]) = marshal ["q"; "n"] c1 :: rs /\
       get (marshal ["q"; "n"] c1) "n" <> get (marshal ["q"; "n"] c2) "n") /\
  (forall a l1 l2, let c1 := mkCall [VArr a l1] [] in let c2 := mkCall [VArr a l2] [] in
     exists rs, snd (calls ["q"] tuple_hash [c2; c1]) = marshal ["q"] c1 :: rs) /\
  (forall id b1 b2, let c1 := mkCall [VState [(id, b1)]] [] in let c2 := mkCall [VState [(id, b2)]] [] in
     exists rs, snd (calls ["s"] tuple_hash [c2; c1]) = marshal ["s"] c1 :: rs).
Proof.
  intros th N.
  assert (K : forall params c1 c2 h, call_hash th c1 = Some h -> call_hash th c2 = Some h -> h <> 0%Z ->
    exists rs, snd (calls params th [c2; c1]) = marshal params c1 :: rs).
  { intros params c1 c2 h H1 H2 Nh. destruct (C44_exact params th c2 [c1]) as [rs E]. exists rs. rewrite E. f_equal.
    rewrite !unhashable_cons, !all_initial_cons, H1, H2. cbn [orb ArgsModel.unhashable existsb].
    destruct (Z.eqb_spec h 0); [contradiction|]. cbn [andb]. cbn [leader]. rewrite H1, H2, Z.eqb_refl. reflexivity. }
  split; [|split; [|split]].
  - exists 64%Z, 72%Z. cbv zeta. edestruct (K ["x"; "y"]) as [rs E]; [| | |exists rs; split; [exact E|vm_compute; split; [auto|split; [auto|discriminate]]]].
    + reflexivity.
    + reflexivity.
    + apply N.
  - intros q c1 c2 H. destruct (hash_of th q) as [h|] eqn:Hq; [|congruence].
    destruct (K ["q"; "n"] c1 c2 (th [h; (-2)%Z])) as [rs E].
    + unfold call_hash, c1; cbn. rewrite Hq. reflexivity.
    + unfold call_hash, c2; cbn. rewrite Hq. reflexivity.
    + apply N.
    + exists rs. split; [exact E|]. unfold c1, c2; cbn. discriminate.
  - intros a l1 l2. apply (K ["q"] _ _ (th [hash_int a])); [reflexivity|reflexivity|apply N].
  - intros id b1 b2. apply (K ["s"] _ _ (th [hash_int (th [id])])); [reflexivity|reflexivity|apply N].
Qed.
Print Assumptions C44_own_arguments_refuted.
