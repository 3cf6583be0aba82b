(** Proofs for ThreshModel.v. *)
From Verif Require Import Base Dict ThreshModel.
From Coq Require Import QArith Qabs Lqa.
Open Scope nat_scope.

Lemma qmax2_l a b : (a <= qmax2 a b)%Q.
Proof. unfold qmax2. destruct (Qle_bool a b) eqn:E; [now apply Qle_bool_iff|apply Qle_refl]. Qed.
Lemma qle_false a b : Qle_bool a b = false -> (b <= a)%Q.
Proof. intros E. apply Qnot_lt_le. intros L. apply Qlt_le_weak, Qle_bool_iff in L. congruence. Qed.
Lemma qmax2_r a b : (b <= qmax2 a b)%Q.
Proof. unfold qmax2. destruct (Qle_bool a b) eqn:E; [apply Qle_refl|now apply qle_false]. Qed.
Lemma qmin2_l a b : (qmin2 a b <= a)%Q.
Proof. unfold qmin2. destruct (Qle_bool a b) eqn:E; [apply Qle_refl|now apply qle_false]. Qed.
Lemma qmin2_r a b : (qmin2 a b <= b)%Q.
Proof. unfold qmin2. destruct (Qle_bool a b) eqn:E; [now apply Qle_bool_iff|apply Qle_refl]. Qed.
Lemma qmax2_or a b : qmax2 a b = a \/ qmax2 a b = b.
Proof. unfold qmax2. destruct (Qle_bool a b); auto. Qed.
Lemma qmin2_or a b : qmin2 a b = a \/ qmin2 a b = b.
Proof. unfold qmin2. destruct (Qle_bool a b); auto. Qed.

Lemma fold_qmax l : forall x, (x <= fold_left qmax2 l x)%Q /\ (forall y, In y l -> (y <= fold_left qmax2 l x)%Q) /\
  (fold_left qmax2 l x = x \/ In (fold_left qmax2 l x) l).
Proof.
  induction l as [|a l IH]; intros x; cbn.
  - split; [apply Qle_refl|]. split; [tauto|auto].
  - destruct (IH (qmax2 x a)) as (H1 & H2 & H3). split; [eapply Qle_trans; [apply qmax2_l|exact H1]|]. split.
    + intros y [<-|I]; [eapply Qle_trans; [apply qmax2_r|exact H1]|auto].
    + destruct H3 as [->|H3]; auto. destruct (qmax2_or x a) as [->| ->]; auto.
Qed.
Lemma qmax_spec l : l <> [] -> In (qmax l) l /\ forall y, In y l -> (y <= qmax l)%Q.
Proof.
  destruct l as [|x l]; [congruence|]. intros _. cbn [qmax]. destruct (fold_qmax l x) as (H1 & H2 & H3). split.
  - destruct H3 as [->|H3]; cbn; auto.
  - intros y [<-|I]; auto.
Qed.

Lemma nth_zip f a b p : p < length a -> p < length b -> nth p (zip f a b) 0%Q = f (nth p a 0%Q) (nth p b 0%Q).
Proof.
  revert b p. induction a as [|x a IH]; intros [|y b] p Ha Hb; cbn in *; try lia. destruct p; auto. apply IH; lia.
Qed.
Lemma zip_length f a b : length a = length b -> length (zip f a b) = length a.
Proof. intros H. unfold zip. rewrite map_length, combine_length. lia. Qed.
Lemma in_nth (l : array) x : In x l <-> exists p, p < length l /\ nth p l 0%Q = x.
Proof. split; [apply In_nth|]. intros (p & H & <-). now apply nth_In. Qed.

Lemma nth_map {A B} (f : A -> B) l p d d' : p < length l -> nth p (map f l) d' = f (nth p l d).
Proof. intros H. rewrite (nth_indep _ d' (f d)) by (now rewrite map_length). apply map_nth. Qed.

(** ** One entry *)
Definition sum_abs (rs : list array) (p : nat) : Q := fold_right Qplus 0%Q (map (fun a => Qabs (nth p a 0%Q)) rs).
Definition entry_ok (N : nat) (e : entry) (rs : list array) : Prop :=
  rs <> [] /\ length (e_min e) = N /\ length (e_max e) = N /\ length (e_abs e) = N /\ (forall a, In a rs -> length a = N) /\
  forall p, p < N ->
    (forall a, In a rs -> (nth p (e_min e) 0 <= nth p a 0)%Q /\ (nth p a 0 <= nth p (e_max e) 0)%Q) /\
    (exists a, In a rs /\ nth p a 0%Q = nth p (e_min e) 0%Q) /\ (exists a, In a rs /\ nth p a 0%Q = nth p (e_max e) 0%Q) /\
    (nth p (e_abs e) 0 == sum_abs rs p)%Q.

Definition upd (e : option entry) (a : array) : entry :=
  match e with
  | None => mkE a a (map Qabs a)
  | Some e => mkE (zip qmin2 (e_min e) a) (zip qmax2 (e_max e) a) (zip Qplus (e_abs e) (map Qabs a))
  end.
Lemma nth_abs p a : p < length a -> nth p (map Qabs a) 0%Q = Qabs (nth p a 0%Q).
Proof. intros H. rewrite (nth_indep _ 0%Q (Qabs 0%Q)) by (now rewrite map_length). apply map_nth. Qed.

Lemma upd_ok N e rs a : length a = N -> (match e with None => rs = [] | Some e => entry_ok N e rs end) -> entry_ok N (upd e a) (a :: rs).
Proof.
  intros L H. destruct e as [e|].
  - destruct H as (Hne & L1 & L2 & L3 & LA & G). split; [discriminate|]. cbn [upd e_min e_max e_abs].
    rewrite !zip_length by (rewrite ?map_length; congruence). do 3 (split; [congruence|]). split; [intros b [<-|I]; auto|].
    intros p Hp. destruct (G p Hp) as (G1 & (b & Ib & Eb) & (d & Id & Ed) & G4).
    rewrite !nth_zip by (rewrite ?map_length; congruence). rewrite nth_abs by congruence. split; [|split; [|split]].
    + intros x [<-|I]; [split; [apply qmin2_r|apply qmax2_r]|]. destruct (G1 x I). split; [eapply Qle_trans; [apply qmin2_l|auto]|eapply Qle_trans; [|apply qmax2_l]; auto].
    + destruct (qmin2_or (nth p (e_min e) 0%Q) (nth p a 0%Q)) as [->| ->]; [exists b|exists a]; cbn; auto.
    + destruct (qmax2_or (nth p (e_max e) 0%Q) (nth p a 0%Q)) as [->| ->]; [exists d|exists a]; cbn; auto.
    + unfold sum_abs in *. cbn [map fold_right]. rewrite G4. ring.
  - subst rs. split; [discriminate|]. cbn [upd e_min e_max e_abs]. rewrite map_length. do 3 (split; [exact L|]). split; [intros b [<-|[]]; auto|].
    intros p Hp. split; [|split; [|split]].
    + intros x [<-|[]]. split; apply Qle_refl.
    + exists a. cbn. auto.
    + exists a. cbn. auto.
    + rewrite nth_abs by congruence. unfold sum_abs. cbn [map fold_right]. ring.
Qed.

Lemma combine_nth_lt {A B} (a : list A) (b : list B) p x y : p < length a -> length a = length b -> nth p (combine a b) (x, y) = (nth p a x, nth p b y).
Proof. intros _ H. apply combine_nth. exact H. Qed.

Lemma spread_abs N e rs p a b : entry_ok N e rs -> p < N -> In a rs -> In b rs ->
  (Qabs (nth p a 0 - nth p b 0) <= nth p (e_max e) 0 - nth p (e_min e) 0)%Q.
Proof.
  intros (_ & _ & _ & _ & _ & G) Hp Ia Ib. destruct (G p Hp) as (G1 & _). destruct (G1 a Ia), (G1 b Ib).
  apply Qabs_Qle_condition. lra.
Qed.
Lemma spread_attained N e rs p : entry_ok N e rs -> p < N ->
  exists a b, In a rs /\ In b rs /\ (Qabs (nth p a 0 - nth p b 0) == nth p (e_max e) 0 - nth p (e_min e) 0)%Q.
Proof.
  intros (_ & _ & _ & _ & _ & G) Hp. destruct (G p Hp) as (G1 & (b & Ib & Eb) & (a & Ia & Ea) & _). exists a, b. split; auto. split; auto.
  rewrite Ea, Eb. apply Qabs_pos. destruct (G1 a Ia). lra.
Qed.

Lemma threshold_ok factor n N e rs : 0 < n -> 0 < N -> entry_ok N e rs ->
  (exists D, largest (difference rs) D /\ (absolute (threshold_of factor n e) == factor * D)%Q) /\
  (((forall x, ~ rel_difference n rs x) /\ relative (threshold_of factor n e) = 0%Q) \/
   exists R, largest (rel_difference n rs) R /\ (relative (threshold_of factor n e) == factor * R)%Q).
Proof.
  intros Hn HN OK. pose proof OK as (Hne & L1 & L2 & L3 & LA & G).
  set (spread := zip Qminus (e_max e) (e_min e)).
  assert (Ls : length spread = N) by (unfold spread; rewrite zip_length; congruence).
  assert (Sp : forall p, p < N -> nth p spread 0%Q = (nth p (e_max e) 0 - nth p (e_min e) 0)%Q).
  { intros p Hp. unfold spread. rewrite nth_zip; [reflexivity|congruence|congruence]. }
  set (mean := map (fun x => x / inject_Z (Z.of_nat n))%Q (e_abs e)).
  assert (Lm : length mean = N) by (unfold mean; now rewrite map_length).
  assert (Me : forall p, p < N -> (nth p mean 0 == mean_abs n rs p)%Q).
  { intros p Hp. unfold mean. rewrite (nth_map _ _ _ 0%Q) by congruence. unfold mean_abs. destruct (G p Hp) as (_ & _ & _ & E). unfold sum_abs in E. rewrite E. reflexivity. }
  assert (SpNe : spread <> []) by (intros E; rewrite E in Ls; cbn in Ls; lia).
  split.
  - exists (qmax spread). split; [|reflexivity]. destruct (qmax_spec spread SpNe) as [I U]. split.
    + apply in_nth in I. destruct I as (p & Hp & E). rewrite Ls in Hp. destruct (spread_attained N e rs p OK Hp) as (a & b & Ia & Ib & Ed).
      exists (Qabs (nth p a 0 - nth p b 0)%Q). split; [exists a, b, p; rewrite (LA a Ia); auto|]. rewrite Ed, <- Sp, E by auto. reflexivity.
    + intros y (a & b & p & Ia & Ib & Hp & ->). rewrite (LA a Ia) in Hp. eapply Qle_trans; [apply (spread_abs N e rs p a b); auto|].
      rewrite <- Sp by auto. apply U. apply in_nth. exists p. split; [congruence|reflexivity].
  - unfold threshold_of. fold spread. fold mean. cbn [relative].
    destruct (forallb (fun m => Qeq_bool m 0) mean) eqn:EZ.
    + left. split; [|reflexivity]. intros x (a & b & p & Ia & Ib & Hp & Hm & _). rewrite (LA a Ia) in Hp. apply Hm. rewrite <- Me by auto.
      rewrite forallb_forall in EZ. apply Qeq_bool_iff. apply EZ. apply in_nth. exists p. split; [congruence|reflexivity].
    + right. set (nz := filter (fun sm => negb (Qeq_bool (snd sm) 0)) (combine spread mean)).
      set (quot := map (fun sm => fst sm / snd sm)%Q nz).
      assert (Inz : forall s m, In (s, m) nz <-> exists p, p < N /\ nth p spread 0%Q = s /\ nth p mean 0%Q = m /\ ~ (m == 0)%Q).
      { intros s m. unfold nz. rewrite filter_In. cbn [snd]. rewrite negb_true_iff.
        assert (Z : Qeq_bool m 0 = false <-> ~ (m == 0)%Q).
        { split; [apply Qeq_bool_neq|]. intros X. destruct (Qeq_bool m 0) eqn:Eb; auto. apply Qeq_bool_iff in Eb. contradiction. }
        rewrite Z. split.
        - intros [I X]. apply (In_nth _ _ (0%Q, 0%Q)) in I. destruct I as (p & Hp & E). rewrite combine_length, Ls, Lm, Nat.min_id in Hp.
          rewrite combine_nth in E by congruence. injection E as E1 E2. exists p. auto.
        - intros (p & Hp & E1 & E2 & X). split; auto. rewrite <- E1, <- E2, <- (combine_nth spread mean p 0%Q 0%Q) by congruence.
          apply nth_In. rewrite combine_length, Ls, Lm, Nat.min_id. exact Hp. }
      assert (Iq : forall x, In x quot <-> exists p, p < N /\ ~ (nth p mean 0 == 0)%Q /\ x = (nth p spread 0 / nth p mean 0)%Q).
      { intros x. unfold quot. rewrite in_map_iff. split.
        - intros ([s m] & <- & I). apply Inz in I. destruct I as (p & Hp & <- & <- & X). exists p. auto.
        - intros (p & Hp & X & ->). exists (nth p spread 0%Q, nth p mean 0%Q). split; [reflexivity|]. apply Inz. exists p. auto. }
      assert (QNe : quot <> []).
      { intros E. apply not_true_iff_false in EZ. apply EZ. apply forallb_forall. intros m I. apply in_nth in I. destruct I as (p & Hp & <-). rewrite Lm in Hp.
        destruct (Qeq_bool (nth p mean 0%Q) 0%Q) eqn:Eb; auto. apply Qeq_bool_neq in Eb.
        assert (X : In (nth p spread 0 / nth p mean 0)%Q quot) by (apply Iq; exists p; auto). rewrite E in X. destruct X. }
      destruct (qmax_spec quot QNe) as [I U].
      assert (MP : forall p, (0 <= mean_abs n rs p)%Q).
      { intros p. unfold mean_abs. apply Qle_shift_div_l; [unfold Qlt; cbn; lia|]. rewrite Qmult_0_l. clear. induction rs as [|a rs IH]; cbn; [apply Qle_refl|].
        pose proof (Qabs_nonneg (nth p a 0%Q)). lra. }
      exists (qmax quot). split; [|reflexivity]. split.
      * apply Iq in I. destruct I as (p & Hp & X & E). destruct (spread_attained N e rs p OK Hp) as (a & b & Ia & Ib & Ed).
        exists (Qabs (nth p a 0 - nth p b 0) / mean_abs n rs p)%Q. split.
        -- exists a, b, p. rewrite (LA a Ia). split; [exact Ia|]. split; [exact Ib|]. split; [exact Hp|]. split; [|reflexivity].
           intros Z0. apply X. rewrite (Me p Hp). exact Z0.
        -- rewrite E, Ed, <- (Me p Hp), (Sp p Hp). reflexivity.
      * intros y (a & b & p & Ia & Ib & Hp & X & ->). rewrite (LA a Ia) in Hp.
        assert (Y : (nth p spread 0 / nth p mean 0 <= qmax quot)%Q) by (apply U, Iq; exists p; split; [exact Hp|]; split; [intros Z0; apply X; rewrite <- (Me p Hp); exact Z0|reflexivity]).
        eapply Qle_trans; [|exact Y]. rewrite (Me p Hp). unfold Qdiv. apply Qmult_le_compat_r.
        -- rewrite Sp by auto. apply (spread_abs N e rs p a b); auto.
        -- apply Qinv_le_0_compat. apply MP.
Qed.

(** ** The tables *)
Lemma record_eq d k a : record d (k, a) = put d k (upd (get d k) a).
Proof. reflexivity. Qed.
Lemma fold_record kw : forall d v, NoDup (keys kw) ->
  get (fold_left record kw d) v = match get kw v with Some a => Some (upd (get d v) a) | None => get d v end.
Proof.
  induction kw as [|[k a] kw IH]; intros d v N; [reflexivity|]. cbn [keys map fst] in N. apply NoDup_cons_iff in N. destruct N as [Nk N]. fold (keys kw) in *.
  cbn [fold_left]. rewrite IH, record_eq, get_put by auto. cbn [get]. destruct (String.eqb_spec v k) as [->|Ne]; [|reflexivity].
  apply get_none in Nk. now rewrite Nk.
Qed.
Lemma set_nth_length {A} i (x : A) l : length (set_nth i x l) = length l.
Proof. revert i. induction l as [|y l IH]; intros [|i]; cbn; auto. Qed.
Lemma nth_set_nth {A} i j (x d : A) l : i < length l -> nth j (set_nth i x l) d = if j =? i then x else nth j l d.
Proof.
  revert i j. induction l as [|y l IH]; intros i j H; cbn in H; [lia|]. destruct i as [|i], j as [|j]; cbn; auto. apply IH. lia.
Qed.
Lemma dget_put {A} (d : dict A) k x k' y : dget (put d k x) k' y = if (k' =? k)%string then x else dget d k' y.
Proof. unfold dget. rewrite get_put. destruct (k' =? k)%string; auto. Qed.

Definition good (len : string -> string -> nat) (o : op) : Prop :=
  match o with Call sp kw => NoDup (keys kw) /\ forall v a, get kw v = Some a -> length a = len sp v | _ => True end.

Section Inv.
  Variable len : string -> string -> nat.
  Definition row_ok (h : list op) (sp : string) (i : nat) (row : dict entry) : Prop :=
    forall v, match get row v with None => recorded h sp i v = [] | Some e => entry_ok (len sp v) e (recorded h sp i v) end.
  Definition inv (c : checkpointer) (h : list op) : Prop :=
    n_trials c = trials h /\ NoDup (keys (table c)) /\
    (forall sp, dget (n_calls c) sp 0 = since h sp) /\
    (forall sp, since h sp <= length (dget (table c) sp [])) /\
    forall sp i, row_ok h sp i (nth i (dget (table c) sp []) []).

  Lemma new_inv : inv new_checkpointer [].
  Proof.
    split; [reflexivity|]. split; [constructor|]. split; [reflexivity|]. split; [cbn; lia|]. intros sp i v. cbn. destruct i; reflexivity.
  Qed.

  Lemma step c h o : inv c h -> good len o -> inv (exec c o) (o :: h).
  Proof.
    intros (T & ND & NC & LE & R) Go. destruct o as [| |sp kw]; cbn [exec].
    - split; [exact T|]. split; [exact ND|]. cbn [table n_calls]. split; [|split].
      + intros sp. cbn [since]. unfold dget. clear. induction (n_calls c) as [|[k n] d IH]; cbn; auto. destruct (sp =? k)%string; auto.
      + intros sp. cbn. lia.
      + intros sp i v. apply R.
    - split; [unfold trials in *; cbn; lia|]. split; [exact ND|]. split; [exact NC|]. split; [exact LE|]. intros sp i v. apply R.
    - destruct Go as [Nk Lk]. cbn [n_trials table n_calls]. split; [exact T|]. split; [apply put_NoDup; exact ND|].
      set (i := dget (n_calls c) sp 0). set (rows := dget (table c) sp []).
      assert (Ei : i = since h sp) by apply NC. assert (Li : i <= length rows) by (rewrite Ei; apply LE).
      set (rows1 := if length rows <? i + 1 then rows ++ [[]] else rows).
      assert (L1 : i < length rows1 /\ forall j, nth j rows1 [] = nth j rows []).
      { unfold rows1. destruct (Nat.ltb_spec (length rows) (i + 1)).
        - rewrite app_length. cbn. split; [lia|]. intros j. destruct (Nat.lt_ge_cases j (length rows)); [apply app_nth1; auto|].
          rewrite app_nth2, (nth_overflow rows) by auto. destruct (j - length rows) as [|[|?]]; reflexivity.
        - split; [lia|reflexivity]. }
      destruct L1 as [L1 E1]. split; [|split].
      + intros sp'.  cbn [table n_calls]. rewrite dget_put, String.eqb_sym. cbn [since]. destruct (String.eqb_spec sp sp') as [<-|Ne]; [lia|]. apply NC.
      + intros sp'.  cbn [table n_calls]. rewrite dget_put, String.eqb_sym. cbn [since]. destruct (String.eqb_spec sp sp') as [<-|Ne]; [|apply LE]. rewrite set_nth_length. lia.
      + intros sp' j v.  cbn [table n_calls]. rewrite dget_put. cbn [recorded]. rewrite (String.eqb_sym sp sp'). destruct (String.eqb_spec sp' sp) as [->|Ne]; [|cbn; apply R].
        rewrite nth_set_nth by auto. cbn [andb]. rewrite <- Ei, (Nat.eqb_sym i j). destruct (Nat.eqb_spec j i) as [->|Nj].
        * rewrite fold_record, E1 by auto. specialize (R sp i v). fold rows in R. destruct (get kw v) as [a|] eqn:Ek; [|exact R].
          cbn [app]. apply upd_ok; [apply Lk; auto|]. exact R.
        * rewrite E1. apply R.
  Qed.

  Lemma exec_all_ok os : Forall (good len) os -> inv (exec_all os) (rev os).
  Proof.
    unfold exec_all. rewrite <- (app_nil_r (rev os)). generalize new_inv. generalize (@nil op) as h. generalize new_checkpointer as c.
    induction os as [|o os IH]; intros c h I F; [exact I|]. apply Forall_cons_iff in F. destruct F as [F1 F2]. cbn [fold_left rev]. rewrite <- app_assoc. cbn [app].
    apply IH; auto. apply step; auto.
  Qed.

  Lemma get_map {A B} (f : string -> A -> B) (d : dict A) k : get (map (fun kv => (fst kv, f (fst kv) (snd kv))) d) k = option_map (f k) (get d k).
  Proof. induction d as [|[j x] d IH]; cbn; auto. destruct (String.eqb_spec k j) as [->|]; auto. Qed.

  Lemma thresholds_ok factor c h : (forall sp v, 0 < len sp v) -> inv c h ->
    match thresholds factor c with
    | None => trials h < 2
    | Some th => 2 <= trials h /\ forall sp,
        match get th sp with
        | None => since h sp = 0 /\ forall i v, recorded h sp i v = []
        | Some rows => length rows = since h sp /\ forall i v, i < since h sp ->
            match get (nth i rows []) v with
            | None => recorded h sp i v = []
            | Some t => recorded h sp i v <> [] /\
                (exists D, largest (difference (recorded h sp i v)) D /\ (absolute t == factor * D)%Q) /\
                (((forall x, ~ rel_difference (trials h) (recorded h sp i v) x) /\ relative t = 0%Q) \/
                 exists R, largest (rel_difference (trials h) (recorded h sp i v)) R /\ (relative t == factor * R)%Q)
            end
        end
    end.
  Proof.
    intros Hlen (T & ND & NC & LE & R). unfold thresholds. rewrite T. destruct (Nat.ltb_spec (trials h) 2) as [L|L]; [exact L|]. split; [exact L|]. intros sp.
    rewrite (get_map (fun k (rows : list (dict entry)) => map (fun i => map (fun ke : string * entry => (fst ke, threshold_of factor (trials h) (snd ke))) (nth i rows [])) (seq 0 (dget (n_calls c) k 0)))).
    specialize (NC sp). specialize (LE sp). specialize (R sp). unfold dget in LE, R. destruct (get (table c) sp) as [rows|]; cbn [option_map].
    - rewrite map_length, seq_length, NC. split; [reflexivity|]. intros i v Hi.
      rewrite (nth_map _ _ _ 0) by (rewrite seq_length; exact Hi). rewrite seq_nth by exact Hi. cbn [plus]. rewrite (get_map (fun _ e => threshold_of factor (trials h) e)).
      specialize (R i v). destruct (get (nth i rows []) v) as [e|]; cbn [option_map]; [|exact R].
      split; [apply R|]. apply threshold_ok with (N := len sp v); auto. lia.
    - split; [cbn in LE; lia|]. intros i v. specialize (R i v). destruct i; exact R.
  Qed.
End Inv.
