(** Proofs about MemoModel.v. *)
From Coq Require Import String QArith Lia.
From Verif Require Import Base Dict MemoModel.
Local Open Scope Z_scope.
Local Open Scope list_scope.

Lemma sdfg_rec' (P : sdfg -> Prop) : (forall a ac co m n, Forall (fun x => P (snd x)) n -> P (Sdfg a ac co m n)) -> forall s, P s.
Proof.
  intros H. fix IH 1. intros [a ac co m n]. apply H. induction n as [|[b c] n IHn]; constructor; [apply IH|exact IHn].
Qed.

Fixpoint children (p : path) (i : nat) (l : list (bool * sdfg)) : list (path * sdfg) :=
  match l with [] => [] | (_, c) :: l' => sdfgs (p ++ [i]) c ++ children p (S i) l' end.
Lemma sdfgs_eq p s : sdfgs p s = (p, s) :: children p 0 (nested s).
Proof.
  destruct s as [a ac co m n]. cbn [sdfgs nested]. f_equal. generalize 0%nat. induction n as [|[b c] n IH]; intros i; cbn; [reflexivity|].
  f_equal. apply IH.
Qed.
Lemma sdfgs_path s : forall p q c, In (q, c) (sdfgs p s) -> exists r, q = p ++ r.
Proof.
  induction s as [a ac co m n IH] using sdfg_rec'. intros p q c. rewrite sdfgs_eq. cbn [nested In]. intros [[= <- <-]|H].
  - exists []. now rewrite app_nil_r.
  - revert H. generalize 0%nat. induction n as [|[b c0] n IHn]; cbn [children In]; [tauto|]. intros i H. inversion IH; subst.
    apply in_app_or in H. destruct H as [H|H]; [|eapply IHn; eauto].
    cbn [snd] in *. destruct (H2 _ _ _ H) as [r E]. exists (i :: r). rewrite E, <- app_assoc. reflexivity.
Qed.
Lemma children_path l : forall p i q c, In (q, c) (children p i l) -> exists j r, q = p ++ j :: r.
Proof.
  induction l as [|[b c0] l IH]; cbn [children In]; intros p i q c H; [tauto|]. apply in_app_or in H. destruct H as [H|H]; [|eauto].
  apply sdfgs_path in H. destruct H as [r ->]. exists i, r. now rewrite <- app_assoc.
Qed.
Lemma path_eqb_spec p q : path_eqb p q = true <-> p = q.
Proof. unfold path_eqb. destruct list_eq_dec; split; congruence. Qed.
Lemma path_refl p : path_eqb p p = true.
Proof. now apply path_eqb_spec. Qed.

Lemma is_ref_spec p s name : is_ref p s name = accessed s name.
Proof.
  unfold is_ref, accessed. rewrite sdfgs_eq. destruct in_dec as [I|N].
  - apply existsb_exists. exists (p, name). cbn [fst snd]. rewrite path_refl, String.eqb_refl. split; [|reflexivity].
    apply in_flat_map. exists (p, s). split; [left; reflexivity|]. apply in_map_iff. exists name. auto.
  - apply Bool.not_true_is_false. intros H. apply existsb_exists in H. destruct H as [[q n] [H E]]. cbn [fst snd] in E.
    apply andb_prop in E. destruct E as [E F]. apply path_eqb_spec in E. apply String.eqb_eq in F. subst.
    apply in_flat_map in H. destruct H as [[q c] [I H]]. apply in_map_iff in H. cbn [fst snd] in H. destruct H as [m [[= -> ->] H]].
    destruct I as [[= ->]|I]; [tauto|]. apply children_path in I. destruct I as (j & r & E).
    rewrite <- (app_nil_r p) in E at 1. apply app_inv_head in E. discriminate.
Qed.

(** what one array adds *)
Definition contrib (t : string) (x : path * sdfg * (string * array)) : list array_report :=
  let '(p, s, y) := x in
  if stored t y then (if path_eqb p [] then [line true s y] else if a_transient (snd y) then [line false s y] else []) else [].
Definition absorb (r : report) (l : list array_report) : report :=
  Report (r_ref r + bytes d_ref l) (r_unref r + bytes (fun d => negb (d_ref d)) l) (r_pool r + bytes d_pool l) (r_top r + bytes d_top l) (r_details r ++ l).
Lemma absorb_nil r : absorb r [] = r.
Proof. destruct r. unfold absorb. cbn. now rewrite app_nil_r, !Z.add_0_r. Qed.
Lemma bytes_app p l l' : bytes p (l ++ l') = bytes p l + bytes p l'.
Proof. unfold bytes. rewrite filter_app, map_app. induction (map d_size (filter p l)); cbn; lia. Qed.
Lemma bytes_split p l : bytes p l + bytes (fun d => negb (p d)) l = bytes (fun _ => true) l.
Proof.
  induction l as [|d l IH]; [reflexivity|]. unfold bytes in *. cbn [filter]. destruct (p d); cbn [negb map fold_right]; rewrite <- IH; lia.
Qed.
Lemma absorb_app r l l' : absorb (absorb r l) l' = absorb r (l ++ l').
Proof. unfold absorb. cbn. rewrite !bytes_app, app_assoc. f_equal; lia. Qed.
Lemma count_absorb top s name a r : count top (accessed s name) name a r = absorb r [line top s (name, a)].
Proof.
  unfold count, absorb, line, bytes. cbn [filter d_ref d_pool d_top]. destruct (accessed s name), (a_pool a), top; cbn; f_equal; lia.
Qed.

Lemma visit_spec al p s name a (K : In (a_storage a) (keys al)) :
  exists al', visit (Some al) (p, s, (name, a)) = Some al' /\ keys al' = keys al
    /\ forall t r, get al t = Some r -> get al' t = Some (absorb r (contrib t (p, s, (name, a)))).
Proof.
  destruct (proj2 (get_some al _) K) as [r0 R0]. unfold visit. cbn [bind]. rewrite is_ref_spec, R0. cbn [bind]. unfold contrib, stored. cbn [snd].
  assert (G : forall v, keys (put al (a_storage a) v) = keys al) by (intros v; rewrite keys_put; destruct in_dec; [reflexivity|tauto]).
  assert (H : forall top t r, get al t = Some r -> get (put al (a_storage a) (count top (accessed s name) name a r0)) t
      = Some (absorb r (if String.eqb (a_storage a) t then [line top s (name, a)] else []))).
  { intros top t r R. rewrite get_put, String.eqb_sym. destruct (String.eqb_spec (a_storage a) t) as [E|N].
    - subst t. rewrite R in R0. injection R0 as <-. now rewrite count_absorb.
    - now rewrite absorb_nil. }
  destruct (path_eqb p []) eqn:P; cbn [negb andb].
  - eexists. split; [reflexivity|]. split; [apply G|]. exact (H true).
  - destruct (a_transient a).
    + eexists. split; [reflexivity|]. split; [apply G|]. exact (H false).
    + eexists. split; [reflexivity|]. split; [reflexivity|]. intros t r R. destruct (String.eqb (a_storage a) t); now rewrite absorb_nil.
Qed.
Lemma fold_visit xs : forall al, (forall p s n a, In (p, s, (n, a)) xs -> In (a_storage a) (keys al)) ->
  exists al', fold_left visit xs (Some al) = Some al' /\ keys al' = keys al /\ forall t r, get al t = Some r -> get al' t = Some (absorb r (flat_map (contrib t) xs)).
Proof.
  induction xs as [|[[p s] [n a]] xs IH]; intros al K.
  - exists al. split; [reflexivity|]. split; [reflexivity|]. intros t r R. cbn. now rewrite absorb_nil.
  - destruct (visit_spec al p s n a) as (al1 & E & K1 & G1); [apply (K p s n a); left; reflexivity|].
    destruct (IH al1) as (al2 & E2 & K2 & G2). { intros p' s' n' a' I. rewrite K1. apply (K p' s' n' a'). right. exact I. }
    exists al2. cbn [fold_left]. rewrite E, E2. split; [reflexivity|]. split; [congruence|]. intros t r R. cbn [flat_map].
    rewrite <- absorb_app. apply G2, G1, R.
Qed.

Definition spread (l : list (path * sdfg)) : list (path * sdfg * (string * array)) := flat_map (fun c => map (fun x => (fst c, snd c, x)) (arrays (snd c))) l.
Lemma own_nested t p s l : p <> [] -> flat_map (contrib t) (map (fun x => (p, s, x)) l) = map (line false s) (filter (fun x => stored t x && a_transient (snd x)) l).
Proof.
  intros N. induction l as [|x l IH]; cbn [map flat_map filter]; [reflexivity|]. rewrite IH. unfold contrib.
  assert (E : path_eqb p [] = false) by (apply Bool.not_true_is_false; rewrite path_eqb_spec; exact N). rewrite E.
  destruct (stored t x), (a_transient (snd x)); reflexivity.
Qed.
Lemma own_top t s l : flat_map (contrib t) (map (fun x => ([], s, x)) l) = map (line true s) (filter (stored t) l).
Proof.
  induction l as [|x l IH]; cbn [map flat_map filter]; [reflexivity|]. rewrite IH. unfold contrib. rewrite path_refl. destruct (stored t x); reflexivity.
Qed.
Lemma children_lines t l : Forall (fun x => forall p, p <> [] -> flat_map (contrib t) (spread (sdfgs p (snd x))) = nested_lines t (snd x)) l ->
  forall p i, flat_map (contrib t) (spread (children p i l)) = flat_map (fun x => nested_lines t (snd x)) l.
Proof.
  induction 1 as [|[b c] l H F IH]; intros p i; cbn [children flat_map]; [reflexivity|]. unfold spread in *. rewrite flat_map_app, flat_map_app.
  cbn [snd] in *. rewrite H, IH; [reflexivity|]. destruct p; discriminate.
Qed.
Lemma nested_ok t s : forall p, p <> [] -> flat_map (contrib t) (spread (sdfgs p s)) = nested_lines t s.
Proof.
  induction s as [a ac co m n IH] using sdfg_rec'. intros p N. rewrite sdfgs_eq. unfold spread. cbn [flat_map fst snd arrays nested]. rewrite flat_map_app.
  rewrite own_nested by exact N. cbn [nested_lines]. f_equal. apply (children_lines t n IH p 0).
Qed.
Lemma lines_ok t s : flat_map (contrib t) (arrays_recursive s) = lines t s.
Proof.
  unfold arrays_recursive, lines. rewrite sdfgs_eq. cbn [flat_map fst snd]. rewrite flat_map_app, own_top. f_equal.
  apply (children_lines t (nested s)). apply Forall_forall. intros [b c] _ p N. apply nested_ok. exact N.
Qed.
Lemma sdfgs_part s : forall p q c, In (q, c) (sdfgs p s) -> part_of c s.
Proof.
  induction s as [a ac co m n IH] using sdfg_rec'. intros p q c. rewrite sdfgs_eq. cbn [nested In]. intros [[= <- <-]|H]; [constructor|].
  assert (G : exists b d, In (b, d) n /\ part_of c d).
  { revert H. generalize 0%nat. clear ac co m. induction n as [|[b d] n IHn]; cbn [children In]; [tauto|]. intros i H. inversion IH; subst.
    apply in_app_or in H. destruct H as [H|H].
    - exists b, d. split; [left; reflexivity|]. eapply H2. exact H.
    - destruct (IHn H3 _ H) as (b' & d' & I & P). exists b', d'. split; [right; exact I|exact P]. }
  destruct G as (b & d & I & P). exact (part_nested (Sdfg a ac co m n) b d c I P).
Qed.
Lemma recursive_part s p c n a : In (p, c, (n, a)) (arrays_recursive s) -> part_of c s /\ In (n, a) (arrays c).
Proof.
  unfold arrays_recursive. rewrite in_flat_map. intros ([q d] & I & H). apply in_map_iff in H. cbn [fst snd] in H. destruct H as (x & [= -> -> ->] & H).
  split; [eapply sdfgs_part; exact I|exact H].
Qed.
Lemma get_start t ts : In t ts -> get (map (fun t => (t, Report 0 0 0 0 [])) ts) t = Some (Report 0 0 0 0 []).
Proof.
  induction ts as [|u ts IH]; cbn [In map get]; [tauto|]. intros H. destruct (String.eqb_spec t u); [reflexivity|]. apply IH. destruct H; congruence.
Qed.

(** timings *)
Lemma topmaps_eq inside s : topmaps inside s = map (fun k => (s, k)) (filter (fun k => negb (inside || m_inner k)) (maps s))
  ++ flat_map (fun x => topmaps (inside || fst x) (snd x)) (nested s).
Proof.
  destruct s as [a ac co m n]. cbn [topmaps maps nested]. f_equal. induction n as [|[b c] n IH]; cbn; [reflexivity|]. f_equal. exact IH.
Qed.
Lemma topmaps_inside s : topmaps true s = [].
Proof.
  induction s as [a ac co m n IH] using sdfg_rec'. rewrite topmaps_eq. cbn [maps nested orb negb].
  replace (filter (fun _ => false) m) with (@nil kmap) by (induction m; auto). cbn [map app]. induction IH as [|[b c] n H F IHn]; cbn; [reflexivity|].
  cbn [snd] in H. now rewrite H, IHn.
Qed.
Lemma topmaps_outer s : forall c k, In (c, k) (topmaps false s) <-> outer s c k.
Proof.
  induction s as [a ac co m n IH] using sdfg_rec'. intros c k. rewrite topmaps_eq, in_app_iff, in_map_iff, in_flat_map. cbn [maps nested orb]. rewrite Forall_forall in IH. split.
  - intros [(x & [= <- <-] & H)|([b d] & I & H)].
    + apply filter_In in H. destruct H as [H E]. apply Bool.negb_true_iff in E. apply outer_own; assumption.
    + cbn [fst snd] in H. destruct b; [rewrite topmaps_inside in H; destruct H|]. eapply outer_nested; [exact I|]. apply (IH _ I). exact H.
  - intros H. inversion H; subst.
    + left. exists k. split; [reflexivity|]. apply filter_In. split; [assumption|]. now rewrite H1.
    + right. exists (false, c0). split; [assumption|]. cbn [fst snd]. apply (IH _ H0). assumption.
Qed.
Lemma mul_known ns : forall x, fold_left mul (map Known ns) (Known x) = Known (x * fold_right Z.mul 1 ns).
Proof. induction ns as [|n ns IH]; intros x; cbn [map fold_left mul fold_right]; [now rewrite Z.mul_1_r|]. rewrite IH. f_equal. lia. Qed.
Lemma mul_symbolic ns : fold_left mul ns Symbolic = Symbolic.
Proof. induction ns; cbn; auto. Qed.
Lemma mul_all ns : forall x y, fold_left mul ns (Known x) = Known y -> exists zs, ns = map Known zs.
Proof.
  induction ns as [|[n|] ns IH]; intros x y; cbn [fold_left mul]; [exists []; reflexivity| |rewrite mul_symbolic; discriminate].
  intros H. destruct (IH _ _ H) as [zs ->]. exists (n :: zs). reflexivity.
Qed.
Lemma total_symbolic s es : forall x, total s es Symbolic = Some x -> x = Symbolic.
Proof.
  induction es as [|e es IH]; cbn [total]; intros x; [congruence|]. destruct (edge_bytes s e); cbn [bind add]; [apply IH|discriminate].
Qed.
Lemma total_moves s es : forall acc n, total s es (Known acc) = Some (Known n) <-> exists m, moves s es m /\ n = acc + m.
Proof.
  induction es as [|e es IH]; intros acc n; cbn [total].
  - split; [intros [= ->]; exists 0; split; [constructor|lia]|]. intros (m & M & ->). inversion M. f_equal. f_equal. lia.
  - split.
    + destruct e as [[name ns]|]; cbn [edge_bytes bind]; [|discriminate]. destruct (get (arrays s) name) as [a|] eqn:A; cbn [bind]; [|discriminate].
      destruct (fold_left mul ns (Known 1)) as [z|] eqn:F; cbn [mul add].
      * destruct (mul_all _ _ _ F) as [zs ->]. rewrite mul_known, Z.mul_1_l in F. injection F as <-. intros H. apply IH in H. destruct H as (m & M & ->).
        eexists. split; [econstructor; eassumption|]. lia.
      * intros H. apply total_symbolic in H. discriminate.
    + intros (m & M & ->). inversion M; subst. cbn [edge_bytes]. rewrite H1. cbn [bind]. rewrite mul_known. cbn [mul add]. apply IH. eexists. split; [eassumption|lia].
Qed.
Lemma moves_fun s es : forall n m, moves s es n -> moves s es m -> n = m.
Proof.
  intros n m A B. assert (T := proj2 (total_moves s es 0 n) (ex_intro _ n (conj A eq_refl))). assert (U := proj2 (total_moves s es 0 m) (ex_intro _ m (conj B eq_refl))). congruence.
Qed.
(** bytes moved by a map, as a function *)
Definition weight (x : sdfg * kmap) : option Z :=
  match total (fst x) (m_in (snd x)) (Known 0), total (fst x) (m_out (snd x)) (Known 0) with Some (Known a), Some (Known b) => Some (a + b) | _, _ => None end.
Lemma weight_spec s k n : weight (s, k) = Some n <-> exists a b, moves s (m_in k) a /\ moves s (m_out k) b /\ n = a + b.
Proof.
  unfold weight. cbn [fst snd]. split.
  - destruct (total s (m_in k) (Known 0)) as [[a|]|] eqn:A; try discriminate. destruct (total s (m_out k) (Known 0)) as [[b|]|] eqn:B; try discriminate. intros [= <-].
    apply total_moves in A, B. destruct A as (a' & A & ->), B as (b' & B & ->). exists a', b'. split; [exact A|]. split; [exact B|reflexivity].
  - intros (a & b & A & B & ->). rewrite (proj2 (total_moves s (m_in k) 0 a)), (proj2 (total_moves s (m_out k) 0 b)); eauto.
Qed.
Definition micro (bw : Q) (n : Z) : Q := (inject_Z n / bw * 1000000)%Q.
Lemma time_map_eq bw res x : ~ (bw == 0)%Q -> time_map bw (Some res) x = match weight x with
  | Some n => Some (put res (m_label (snd x)) (match get res (m_label (snd x)) with Some old => if Qle_bool old (micro bw n) then micro bw n else old | None => micro bw n end))
  | None => None end.
Proof.
  intros N. unfold time_map, weight. cbn [bind]. destruct (total (fst x) (m_in (snd x)) (Known 0)) as [[a|]|]; cbn [bind]; destruct (total (fst x) (m_out (snd x)) (Known 0)) as [[b|]|]; cbn [bind add]; try reflexivity.
  destruct (Qeq_bool bw 0) eqn:E; [apply Qeq_bool_eq in E; tauto|reflexivity].
Qed.
Lemma fold_none bw xs : fold_left (time_map bw) xs None = None.
Proof. induction xs; cbn; auto. Qed.
Definition good (bw : Q) (xs : list (sdfg * kmap)) (res : dict Q) : Prop :=
  (forall x n, In x xs -> weight x = Some n -> exists v, get res (m_label (snd x)) = Some v /\ (micro bw n <= v)%Q)
  /\ (forall l v, get res l = Some v -> exists x n, In x xs /\ m_label (snd x) = l /\ weight x = Some n /\ v = micro bw n).
Lemma time_good bw xs res x res' : ~ (bw == 0)%Q -> good bw xs res -> time_map bw (Some res) x = Some res' -> (exists n, weight x = Some n) /\ good bw (xs ++ [x]) res'.
Proof.
  intros N [G1 G2] E. rewrite time_map_eq in E by exact N. destruct (weight x) as [n|] eqn:W; [|discriminate]. injection E as <-. split; [eauto|]. split.
  - intros y m I Y. rewrite get_put. apply in_app_or in I. destruct I as [I|[<-|[]]].
    + destruct (G1 _ _ I Y) as (v & V & L). destruct (String.eqb_spec (m_label (snd y)) (m_label (snd x))) as [E|_]; [|eauto].
      rewrite E in V. rewrite V. eexists. split; [reflexivity|]. destruct (Qle_bool v (micro bw n)) eqn:Q; [|exact L]. apply Qle_bool_iff in Q. eapply Qle_trans; eauto.
    + rewrite String.eqb_refl. eexists. split; [reflexivity|]. rewrite W in Y. injection Y as <-.
      destruct (get res (m_label (snd x))) as [v|]; [|apply Qle_refl]. destruct (Qle_bool v (micro bw n)) eqn:Q; [apply Qle_refl|].
      destruct (Qlt_le_dec (micro bw n) v) as [L|L]; [apply Qlt_le_weak, L|]. apply Qle_bool_iff in L. congruence.
  - intros l v. rewrite get_put. destruct (String.eqb_spec l (m_label (snd x))) as [->|_].
    + assert (K : exists y m, In y (xs ++ [x]) /\ m_label (snd y) = m_label (snd x) /\ weight y = Some m /\ micro bw n = micro bw m).
      { exists x, n. split; [apply in_or_app; right; left; reflexivity|]. auto. }
      destruct (get res (m_label (snd x))) as [o|] eqn:O; [|intros [= <-]; exact K]. destruct (Qle_bool o (micro bw n)); intros [= <-]; [exact K|].
      destruct (G2 _ _ O) as (y & m & I & L & W' & V). exists y, m. split; [apply in_or_app; left; exact I|]. auto.
    + intros V. destruct (G2 _ _ V) as (y & m & I & L & W' & V'). exists y, m. split; [apply in_or_app; left; exact I|]. auto.
Qed.
Lemma fold_good bw xs : ~ (bw == 0)%Q -> forall ys res res', good bw ys res -> fold_left (time_map bw) xs (Some res) = Some res' ->
  (forall x, In x xs -> exists n, weight x = Some n) /\ good bw (ys ++ xs) res'.
Proof.
  intros N. induction xs as [|x xs IH]; intros ys res res' G E.
  - injection E as <-. rewrite app_nil_r. split; [intros x []|exact G].
  - cbn [fold_left] in E. destruct (time_map bw (Some res) x) as [r1|] eqn:T; [|rewrite fold_none in E; discriminate].
    destruct (time_good _ _ _ _ _ N G T) as [W G1]. destruct (IH _ _ _ G1 E) as [W' G']. rewrite <- app_assoc in G'. split; [|exact G'].
    intros y [<-|I]; auto.
Qed.
Lemma fold_total bw xs : ~ (bw == 0)%Q -> (forall x, In x xs -> exists n, weight x = Some n) -> forall res, exists res', fold_left (time_map bw) xs (Some res) = Some res'.
Proof.
  intros N. induction xs as [|x xs IH]; intros H res; [exists res; reflexivity|]. cbn [fold_left]. rewrite time_map_eq by exact N.
  destruct (H x) as [n ->]; [left; reflexivity|]. apply IH. intros y I. apply H. right. exact I.
Qed.
