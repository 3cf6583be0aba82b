(** Lemmas on the model of the conversion of serialized data. *)
From Verif Require Import Base Dict ConvModel.
Local Open Scope nat_scope.

(** ** sequences of partial results *)
Lemma every_F2 {A} (l : list (option A)) r : every l = Some r <-> Forall2 (fun o a => o = Some a) l r.
Proof.
  revert r. induction l as [|o l IH]; intros r; cbn.
  - split; [intros [= <-]; constructor|]. intros F; inversion F; reflexivity.
  - split.
    + destruct o as [a|]; cbn; [|discriminate]. destruct (every l) as [q|] eqn:E; cbn; [|discriminate]. intros [= <-]. constructor; [reflexivity|now apply IH].
    + intros F. inversion F as [|? a ? q E F']; subst. cbn. apply IH in F'. rewrite F'. reflexivity.
Qed.
Lemma F2_len {A B} (P : A -> B -> Prop) l m : Forall2 P l m -> length l = length m.
Proof. induction 1; cbn; congruence. Qed.
Lemma F2_nth {A B} (P : A -> B -> Prop) l m i x : Forall2 P l m -> nth_error l i = Some x -> exists y, nth_error m i = Some y /\ P x y.
Proof. intros F. revert i. induction F as [|a b l m H F IH]; intros [|i]; cbn; try discriminate; [intros [= <-]; eauto|apply IH]. Qed.
Lemma F2_nth_r {A B} (P : A -> B -> Prop) l m i y : Forall2 P l m -> nth_error m i = Some y -> exists x, nth_error l i = Some x /\ P x y.
Proof. intros F. revert i. induction F as [|a b l m H F IH]; intros [|i]; cbn; try discriminate; [intros [= <-]; eauto|apply IH]. Qed.

Lemma every_length {A} (l : list (option A)) r : every l = Some r -> length r = length l.
Proof. intros E. apply every_F2 in E. symmetry. now apply F2_len in E. Qed.
Lemma every_map_nth {A B} (f : A -> option B) l r i x : every (map f l) = Some r -> nth_error l i = Some x -> exists y, nth_error r i = Some y /\ f x = Some y.
Proof.
  intros E H. apply every_F2 in E. destruct (F2_nth _ _ _ i (f x) E) as (y & Hy & Hf); [|eauto].
  rewrite nth_error_map, H. reflexivity.
Qed.
Lemma every_map_nth_r {A B} (f : A -> option B) l r i y : every (map f l) = Some r -> nth_error r i = Some y -> exists x, nth_error l i = Some x /\ f x = Some y.
Proof.
  intros E H. apply every_F2 in E. destruct (F2_nth_r _ _ _ i y E H) as (o & Ho & Hf). rewrite nth_error_map in Ho.
  destruct (nth_error l i) as [x|]; cbn in Ho; [|discriminate]. injection Ho as <-. eauto.
Qed.
Lemma every_total {A B} (f : A -> option B) l : (forall x, In x l -> exists y, f x = Some y) -> exists r, every (map f l) = Some r.
Proof.
  induction l as [|x l IH]; intros H; [exists []; reflexivity|]. cbn.
  destruct (H x (or_introl eq_refl)) as (y & E). destruct IH as (r & R); [intros z Hz; apply H; now right|]. exists (y :: r). rewrite E. cbn. rewrite R. reflexivity.
Qed.
Lemma nth_error_ext {A} (l m : list A) : (forall i, nth_error l i = nth_error m i) -> l = m.
Proof.
  revert m. induction l as [|a l IH]; intros [|b m] H; [reflexivity|specialize (H 0); discriminate|specialize (H 0); discriminate|].
  pose proof (H 0) as E. cbn in E. injection E as <-. f_equal. apply IH. intros i. exact (H (S i)).
Qed.
(** the dictionary of the results of [f] *)
Lemma every_dict {B} (f : string -> option B) names d : every (map (fun n => do l <- f n; Some (n, l)) names) = Some d ->
  keys d = names /\ forall x, get d x = if in_dec string_dec x names then f x else None.
Proof.
  revert d. induction names as [|n names IH]; intros d; cbn [map every].
  - intros [= <-]. split; reflexivity.
  - destruct (f n) as [l|] eqn:E; cbn [bind]; [|discriminate].
    destruct (every (map _ names)) as [r|] eqn:R; cbn [bind]; [|discriminate]. intros [= <-].
    destruct (IH r eq_refl) as (K & G). split; [unfold keys in *; cbn; now rewrite K|].
    intros x. cbn [get]. destruct (String.eqb_spec x n) as [->|N].
    + destruct (in_dec string_dec n (n :: names)) as [_|N]; [now rewrite E|]. exfalso. apply N. now left.
    + rewrite G. destruct (in_dec string_dec x names) as [I|I], (in_dec string_dec x (n :: names)) as [J|J]; try reflexivity.
      * exfalso. apply J. now right.
      * exfalso. destruct J as [J|J]; congruence.
Qed.
Lemma every_dict_total {B} (f : string -> option B) names : (forall x, In x names -> exists y, f x = Some y) -> exists d, every (map (fun n => do l <- f n; Some (n, l)) names) = Some d.
Proof. intros H. apply every_total. intros x Hx. destruct (H x Hx) as (y & ->). cbn. eauto. Qed.

Section Conv.
Context {V : Type} (nan zero : V) (huge : V -> bool).
Local Notation arr := (arr V).

(** ** reading *)
Lemma size_one s : size s = 1 -> Forall (fun n => n = 1) s.
Proof.
  induction s as [|n s IH]; cbn; [constructor|]. intros H. fold (size s) in H.
  apply Nat.eq_mul_1 in H. destruct H as (-> & Hs).
  constructor; [reflexivity|]. now apply IH.
Qed.
Lemma read_written (a b : arr) : read_serialized_data zero huge a = Some b -> written zero huge a b.
Proof.
  unfold read_serialized_data, written. destruct (Nat.eqb_spec (size (shape a)) 1) as [E|E].
  - destruct (shape a) as [|n s] eqn:S0; [discriminate|]. intros [= <-]. right. split; [exact E|].
    apply size_one in E. inversion E; subst. exists s. cbn. repeat split.
  - intros [= <-]. left. cbn. repeat split; auto.
Qed.
Lemma read_total (a : arr) : shape a <> [] -> exists b, read_serialized_data zero huge a = Some b /\ shape b = if size (shape a) =? 1 then tl (shape a) else shape a.
Proof.
  intros N. unfold read_serialized_data. destruct (size (shape a) =? 1).
  - destruct (shape a) as [|n s]; [congruence|]. eexists. split; reflexivity.
  - eexists. split; reflexivity.
Qed.
Lemma read_shape (a b a' b' : arr) : read_serialized_data zero huge a = Some b -> read_serialized_data zero huge a' = Some b' -> shape a = shape a' -> shape b = shape b'.
Proof.
  unfold read_serialized_data. intros E E' H. rewrite <- H in E'. destruct (size (shape a) =? 1).
  - destruct (shape a); [discriminate|]. injection E as <-. injection E' as <-. reflexivity.
  - injection E as <-. injection E' as <-. reflexivity.
Qed.
Lemma written_same (w a b : arr) : written zero huge w a -> same a b -> written zero huge w b.
Proof.
  intros [(N & S1 & E)|(N & s & S1 & S2 & E)] (Hs & He); [left|right].
  - split; [exact N|]. split; [congruence|]. intros i I. rewrite <- He; [now apply E|]. now rewrite S1.
  - split; [exact N|]. exists s. split; [exact S1|]. split; [congruence|]. intros i I. rewrite <- He; [now apply E|]. now rewrite S2.
Qed.

(** ** assignment *)
Lemma fits_refl s : fits s s = true.
Proof. induction s as [|n s IH]; cbn; [reflexivity|]. now rewrite Nat.eqb_refl, IH. Qed.
Lemma clip_within i s : within i s -> clip s i = i.
Proof.
  unfold within. induction 1 as [|k n i s H F IH]; cbn; [reflexivity|]. rewrite IH. destruct (Nat.eqb_spec n 1) as [->|]; [|reflexivity]. f_equal. lia.
Qed.
Lemma assign_same (a : arr) : exists f, assign (shape a) a = Some f /\ forall i, within i (shape a) -> f i = elt a i.
Proof.
  unfold assign. rewrite Nat.ltb_irrefl, Nat.sub_diag. cbn [skipn]. rewrite fits_refl. eexists. split; [reflexivity|]. intros i I. cbn. now rewrite clip_within.
Qed.

(** ** what is kept of each rank *)
Lemma rank_list_inv merge nx ny names ranks : forall b l, rank_list nan zero huge merge nx ny names b ranks = Some l ->
  length l = length ranks /\
  forall r calls, nth_error ranks r = Some calls -> exists d, nth_error l r = Some d /\ keys d = names /\
    forall x, get d x = if in_dec string_dec x names then rank_variable nan zero huge merge nx ny (match r with 0 => b | S q => nth_error l q end) calls x else None.
Proof.
  induction ranks as [|c ranks IH]; intros b l; cbn [rank_list].
  - intros [= <-]. split; [reflexivity|]. intros [|r]; discriminate.
  - destruct (every _) as [d|] eqn:E; cbn [bind]; [|discriminate].
    destruct (rank_list _ _ _ _ _ _ _ _ ranks) as [l'|] eqn:L; cbn [bind]; [|discriminate]. intros [= <-].
    destruct (IH _ _ L) as (Hl & H). split; [cbn; now rewrite Hl|].
    intros [|r] calls Hc; cbn in Hc.
    + injection Hc as <-. exists d. split; [reflexivity|]. apply every_dict in E. exact E.
    + destruct (H r calls Hc) as (e & He & K & G). exists e. split; [exact He|]. split; [exact K|]. intros x. rewrite G. destruct r; reflexivity.
Qed.

(** ** the array of all ranks *)
Lemma get_data_inv s n (l : list (dict (list arr))) x v : get_data nan s n l x = Some v ->
  v_ranks v = length l /\ v_shape v = s /\
  forall r d e c a, nth_error l r = Some d -> get d x = Some e -> c < n -> nth_error e c = Some a ->
    exists f, assign s a = Some f /\ forall i, v_elt v c r i = f i.
Proof.
  unfold get_data. destruct (every _) as [t|] eqn:E; cbn [bind]; [|discriminate]. intros [= <-]. cbn. split; [reflexivity|]. split; [reflexivity|].
  intros r d e c a Hd He Hc Ha.
  destruct (every_map_nth _ _ _ _ _ E Hd) as (q & Hq & Q). rewrite He in Q. cbn [bind] in Q.
  assert (nth_error (seq 0 n) c = Some c) as Hs. { rewrite (nth_error_nth' _ 0); [|rewrite seq_length; exact Hc]. now rewrite seq_nth. }
  destruct (every_map_nth _ _ _ _ _ Q Hs) as (f & Hf & F). rewrite Ha in F. cbn [bind] in F. exists f. split; [exact F|]. intros i. now rewrite Hq, Hf.
Qed.
Lemma get_data_calls s n (l : list (dict (list arr))) x v r d : get_data nan s n l x = Some v -> nth_error l r = Some d -> exists e, get d x = Some e /\ n <= length e.
Proof.
  unfold get_data. destruct (every _) as [t|] eqn:E; cbn [bind]; [|discriminate]. intros _ Hd.
  destruct (every_map_nth _ _ _ _ _ E Hd) as (q & Hq & Q). destruct (get d x) as [e|]; cbn [bind] in Q; [|discriminate]. exists e. split; [reflexivity|].
  destruct n as [|n]; [lia|].
  assert (nth_error (seq 0 (S n)) n = Some n) as Hs. { rewrite (nth_error_nth' _ 0); [|rewrite seq_length; lia]. rewrite seq_nth; [reflexivity|lia]. }
  destruct (every_map_nth _ _ _ _ _ Q Hs) as (f & Hf & F). destruct (nth_error e n) eqn:N; cbn in F; [|discriminate].
  assert (n < length e) by (apply nth_error_Some; congruence). lia.
Qed.
Lemma get_data_total s n (l : list (dict (list arr))) x :
  (forall d, In d l -> exists e, get d x = Some e /\ length e = n /\ Forall (fun a => shape a = s) e) -> exists v, get_data nan s n l x = Some v.
Proof.
  intros H. unfold get_data.
  edestruct (every_total (fun d : dict (list arr) => do e <- get d x; every (map (fun i => do a <- nth_error e i; assign s a) (seq 0 n))) l) as (t & ->); [|cbn; eauto].
  intros d Hd. destruct (H d Hd) as (e & -> & L & F). cbn [bind]. apply every_total. intros i I. apply in_seq in I.
  destruct (nth_error e i) as [a|] eqn:A; [|apply nth_error_None in A; lia]. cbn [bind].
  apply nth_error_In in A. rewrite Forall_forall in F. specialize (F a A). subst s. destruct (assign_same a) as (f & E & _). eauto.
Qed.
Lemma collapses_same s x (l : list (dict (list arr))) :
  (forall d, In d l -> exists e a, get d x = Some e /\ nth_error e 0 = Some a /\ shape a = s) -> collapses s x l = Some false.
Proof.
  induction l as [|d l IH]; intros H; cbn [collapses]; [reflexivity|].
  destruct (H d (or_introl eq_refl)) as (e & a & -> & Ha & S0). cbn [bind]. rewrite Ha. cbn [bind].
  destruct (list_eq_dec Nat.eq_dec (shape a) s); [|congruence]. apply IH. intros d' Hd'. apply H. now right.
Qed.

(** ** the conversion *)
Lemma convert_inv merge dn nml sp files d : convert nan zero huge merge dn nml sp files = Some d ->
  exists f0 first ranks l last,
    files (serializer_name dn 0) = Some f0 /\ nth_error f0 0 = Some first /\
    length ranks = total_ranks nml /\ (forall r, r < total_ranks nml -> exists f, files (serializer_name dn r) = Some f /\ nth_error ranks r = Some f) /\
    rank_list nan zero huge merge (tile_nx nml) (tile_ny nml) (nodup string_dec (keys first)) None ranks = Some l /\
    nth_error (rev ranks) 0 = Some last /\ ds_savepoints d = (if merge then 1 else length last) /\
    keys (ds_vars d) = filter (fun name => negb (name =? "rank")%string) (nodup string_dec (keys first)) /\
    (forall x v, get (ds_vars d) x = Some v -> x <> "rank"%string /\ In x (keys first) /\ variable nan sp (ds_savepoints d) l x = Some v) /\
    (forall x v, get (ds_vars d) x = Some v -> v_ranks v = ds_ranks d).
Proof.
  unfold convert. destruct (files (serializer_name dn 0)) as [f0|] eqn:F0; cbn [bind]; [|discriminate].
  destruct (nth_error f0 0) as [first|] eqn:Fi; cbn [bind]; [|discriminate].
  destruct (every _) as [ranks|] eqn:R; cbn [bind]; [|discriminate].
  destruct (rank_list _ _ _ _ _ _ _ _ ranks) as [l|] eqn:L; cbn [bind]; [|discriminate].
  destruct (nth_error (rev ranks) 0) as [last|] eqn:La; cbn [bind]; [|discriminate].
  destruct (every (map _ (filter _ _))) as [vars|] eqn:E; cbn [bind]; [|discriminate].
  apply every_dict in E. destruct E as (K & G).
  assert (length ranks = total_ranks nml) as Hlen. { apply every_length in R. rewrite map_length, seq_length in R. exact R. }
  assert (forall r, r < total_ranks nml -> exists f, files (serializer_name dn r) = Some f /\ nth_error ranks r = Some f) as Hr.
  { intros r Hr. assert (nth_error (seq 0 (total_ranks nml)) r = Some r) as Hs. { rewrite (nth_error_nth' _ 0); [|rewrite seq_length; exact Hr]. now rewrite seq_nth. }
    destruct (every_map_nth _ _ _ _ _ R Hs) as (f & Hf & F). eauto. }
  assert (forall x v, get vars x = Some v -> x <> "rank"%string /\ In x (keys first) /\ variable nan sp (if merge then 1 else length last) l x = Some v) as Hv.
  { intros x v Hx. rewrite G in Hx. destruct (in_dec _ _ _) as [I|]; [|discriminate]. apply filter_In in I. destruct I as (I & N). apply nodup_In in I.
    split; [|split; [exact I|exact Hx]]. intros ->. discriminate. }
  destruct vars as [|[y v0] vars'] eqn:EV.
  - intros [= <-]. exists f0, first, ranks, l, last. cbn [ds_savepoints ds_vars ds_ranks]. repeat (split; [assumption || reflexivity|]). discriminate.
  - destruct (forallb _ _) eqn:FB; [|discriminate]. intros [= <-]. exists f0, first, ranks, l, last. cbn [ds_savepoints ds_vars ds_ranks]. rewrite <- EV in *.
    repeat (split; [assumption || reflexivity|]). intros x v Hx. rewrite forallb_forall in FB.
    assert (In (x, v) vars) as I. { clear -Hx. induction vars as [|[k w] vars IH]; cbn in *; [discriminate|]. destruct (String.eqb_spec x k) as [->|]; [injection Hx as ->; now left|right; auto]. }
    apply FB in I. cbn in I. now apply Nat.eqb_eq in I.
Qed.

Lemma get_map {A B} (g : A -> B) (d : dict A) x : get (map (fun p => (fst p, g (snd p))) d) x = option_map g (get d x).
Proof. induction d as [|[k a] d IH]; cbn; [reflexivity|]. destruct (x =? k)%string; [reflexivity|exact IH]. Qed.
Lemma load_inv (d : dataset V) r c l : load d r c = Some l -> r < ds_ranks d /\ c < ds_savepoints d /\ ds_vars d <> [] /\ keys l = keys (ds_vars d) /\
  forall x, get l x = option_map (fun v => Arr (v_shape v) (v_elt v c r)) (get (ds_vars d) x).
Proof.
  unfold load. destruct (ds_vars d) as [|p vs] eqn:E; [discriminate|]. destruct (Nat.ltb_spec r (ds_ranks d)); [|discriminate]. destruct (Nat.ltb_spec c (ds_savepoints d)); [|discriminate].
  cbn [andb]. intros [= <-]. repeat split; auto; [discriminate|unfold keys; cbn; f_equal; rewrite map_map; now apply map_ext|].
  intros x. rewrite <- (get_map (fun v => Arr (v_shape v) (v_elt v c r))). reflexivity.
Qed.
End Conv.
