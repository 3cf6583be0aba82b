(** Proofs about field bundles. *)
From Verif Require Import Base Dict BundleModel.
Local Open Scope nat_scope.

Section Bundle.
  Variable len : nat -> Z.
  Local Notation run os := (run len os first_world).

  Lemma set_map_length l m k v : length (set_map l m k v) = length l.
  Proof. revert m. induction l as [|d l IH]; destruct m; cbn; auto. Qed.
  Lemma nth_set_map l m k v m' n :
    get (nth m' (set_map l m k v) []) n = if Nat.eqb m' m && (n =? k)%string && Nat.ltb m' (length l) then Some v else get (nth m' l []) n.
  Proof.
    revert m m'. induction l as [|d l IH]; intros m m'.
    - cbn [set_map length]. replace (Nat.ltb m' 0) with false by (symmetry; apply Nat.ltb_ge; lia). now rewrite andb_false_r.
    - destruct m, m'; cbn [set_map nth length Nat.eqb andb]; try reflexivity.
      + rewrite get_put. replace (Nat.ltb 0 (S (length l))) with true by (symmetry; apply Nat.ltb_lt; lia). now rewrite andb_true_r.
      + rewrite IH. reflexivity.
  Qed.

  (** the world is what the operations say *)
  Lemma run_world os : let '(w, h) := run os in
    bundles w = created os /\ length (maps w) = n_maps os /\ (forall m n, get (nth m (maps w) []) n = mapped os m n) /\ map fst h = os.
  Proof.
    induction os as [|o os IH]; cbn [BundleModel.run].
    - cbn. repeat split; auto. intros m n. destruct m; reflexivity.
    - destruct (run os) as [w h]. destruct IH as (B & L & M & H).
      destruct o as [d|q m|b i n|b n]; cbn [step].
      + cbn [bundles maps created mapped map fst]. unfold n_maps. cbn [filter length]. fold (n_maps os).
        rewrite app_length, L. cbn. rewrite H. split; [auto|]. split; [lia|]. split; [|auto]. intros m n.
        destruct (Nat.eqb_spec m (n_maps os)) as [->|N].
        * rewrite <- L, nth_middle. reflexivity.
        * rewrite <- M. destruct (Nat.lt_ge_cases m (length (maps w))).
          -- now rewrite app_nth1.
          -- rewrite !nth_overflow; auto. rewrite app_length; cbn. lia.
      + cbn [bundles maps created mapped map fst]. unfold n_maps. cbn [filter length]. fold (n_maps os). rewrite B, H. auto.
      + cbn [bundles maps created mapped map fst]. unfold n_maps. cbn [filter length]. fold (n_maps os).
        rewrite set_map_length, H. split; [auto|]. split; [auto|]. split; [|auto]. intros m n'.
        rewrite nth_set_map, L, M. unfold indexer_of. now rewrite B.
      + assert (K : forall w' r, step len (Access b n) w = (w', r) -> bundles w' = bundles w /\ maps w' = maps w).
        { intros w' r E. cbn [step] in E. destruct (get (nth _ _ _) n); [|now injection E as <- <-].
          destruct (get (per_name w) n); [now injection E as <- <-|]. destruct (in_range _ _ _); now injection E as <- <-. }
        cbn [step] in K. destruct (get (nth (indexer_of w b) (maps w) []) n) as [i|] eqn:G.
        * destruct (get (per_name w) n) eqn:P; [|destruct (in_range len (quantity_of w b) i)];
            cbn [bundles maps created mapped map fst]; unfold n_maps; cbn [filter length]; fold (n_maps os); rewrite H; auto.
        * cbn [bundles maps created mapped map fst]; unfold n_maps; cbn [filter length]; fold (n_maps os); rewrite H; auto.
  Qed.

  (** the view produced by the earliest access of a name through any bundle *)
  Fixpoint first_view (h : list (op * result)) (n : string) : option (nat * Z) :=
    match h with
    | [] => None
    | (Access b n', View q i) :: h' =>
        match first_view h' n with Some v => Some v | None => if (n =? n')%string then Some (q, i) else None end
    | _ :: h' => first_view h' n
    end.

  Lemma run_cache os n : let '(w, h) := run os in get (per_name w) n = first_view h n.
  Proof.
    induction os as [|o os IH]; cbn [BundleModel.run]; [reflexivity|].
    destruct (run os) as [w h]. destruct o as [d|q m|b i k|b k]; cbn [step]; try exact IH.
    destruct (get (nth _ _ _) k) as [i|]; [|exact IH].
    destruct (get (per_name w) k) as [[q j]|] eqn:P.
    - cbn [fst snd first_view]. rewrite <- IH. destruct (get (per_name w) n) eqn:Pn; [reflexivity|].
      destruct (String.eqb_spec n k) as [->|]; [congruence|reflexivity].
    - destruct (in_range _ _ _); [|exact IH]. cbn [per_name first_view]. rewrite get_put, <- IH.
      destruct (String.eqb_spec n k) as [->|]; [now rewrite P|]. now destruct (get (per_name w) n).
  Qed.

  Lemma access_result os b n : let '(_, h) := run (Access b n :: os) in
    exists r h', h = (Access b n, r) :: h' /\ h' = snd (run os) /\
    r = match own len os b n with
        | NoSuchField => NoSuchField
        | o => match first_view h' n with Some (q, i) => View q i | None => o end
        end.
  Proof.
    pose proof (run_world os) as RW. pose proof (run_cache os n) as RC. cbn [BundleModel.run].
    destruct (run os) as [w h] eqn:R. destruct RW as (B & L & M & H). destruct (step len (Access b n) w) as [w2 r] eqn:S.
    exists r, h. split; [reflexivity|]. split; [reflexivity|]. cbn [step] in S. unfold own.
    unfold indexer_of, quantity_of in S. rewrite M, B, RC in S.
    destruct (nth b (created os) (0, 0)) as [q m] eqn:E. cbn [fst snd] in S.
    destruct (mapped os m n) as [i|]; [|now injection S as <- <-].
    destruct (first_view h n) as [[q' i']|].
    - injection S as <- <-. cbn [fst snd]. destruct (_ && _)%bool; reflexivity.
    - change (in_range len q i) with ((- len q <=? i) && (i <? len q))%Z%bool in S. destruct (_ && _)%bool; now injection S as <- <-.
  Qed.
End Bundle.
