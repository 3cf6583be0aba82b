(** Proofs for C108: what orchestrated objects do, over all histories. *)
From Verif Require Import Base Dict OrchModel.
Open Scope Z_scope.

Lemma set_nth_error {A} (l : list A) : forall n x k, nth_error (set_nth l n x) k = if (k =? n)%nat then match nth_error l n with Some _ => Some x | None => None end else nth_error l k.
Proof.
  induction l as [|y l IH]; intros [|n] x [|k]; cbn; try reflexivity.
  - now destruct (k =? n)%nat.
  - now rewrite IH.
Qed.
Lemma set_nth_length {A} (l : list A) : forall n x, length (set_nth l n x) = length l.
Proof. induction l; intros [|n] x; cbn; auto. Qed.
Lemma nth_app {A} (l : list A) x k : nth_error (l ++ [x]) k = if (k =? length l)%nat then Some x else nth_error l k.
Proof.
  destruct (Nat.eqb_spec k (length l)) as [->|N]; [now rewrite nth_error_app2, Nat.sub_diag by lia|].
  destruct (Nat.lt_ge_cases k (length l)) as [L|L]; [now rewrite nth_error_app1|]. rewrite nth_error_app2 by lia.
  rewrite (proj2 (nth_error_None l k)) by lia. destruct (k - length l)%nat as [|[|n]] eqn:E; [lia|reflexivity..].
Qed.
Lemma nth_lt {A} (l : list A) k x : nth_error l k = Some x -> (k < length l)%nat.
Proof. intros E. apply nth_error_Some. congruence. Qed.
Lemma find_app l1 l2 a f : find (l1 ++ l2) a f = match find l1 a f with Some b => Some b | None => find l2 a f end.
Proof. induction l1 as [|[[a' f'] b] l1 IH]; cbn; [reflexivity|]. destruct ((a =? a') && (f =? f')%nat); auto. Qed.
Lemma find_in l a f b : find l a f = Some b -> In (a, f, b) l.
Proof.
  induction l as [|[[a' f'] b'] l IH]; cbn; [discriminate|]. destruct ((a =? a') && (f =? f')%nat) eqn:E; [|auto].
  intros [= ->]. apply andb_true_iff in E as [E1 E2]. apply Z.eqb_eq in E1 as ->. apply Nat.eqb_eq in E2 as ->. now left.
Qed.
Lemma find_none l a f : (forall b, ~ In (a, f, b) l) -> find l a f = None.
Proof. intros H. destruct (find l a f) eqn:E; [|reflexivity]. apply find_in in E. exfalso. eapply H; eauto. Qed.

(** ** worlds that go on *)
Definition ext (w w' : world) : Prop :=
  n_user w' = n_user w /\
  (forall f g, nth_error (funcs w) f = Some g -> exists g', nth_error (funcs w') f = Some g' /\ body g' = body g) /\
  (forall b x, nth_error (bounds w) b = Some x -> nth_error (bounds w') b = Some x).
Lemma ext_refl w : ext w w.
Proof. split; [reflexivity|]. split; eauto. Qed.
Lemma ext_trans u v w : ext u v -> ext v w -> ext u w.
Proof.
  intros (A & B & C) (A' & B' & C'). split; [congruence|]. split; [|eauto]. intros f g E. destruct (B f g E) as (g1 & E1 & Y1). destruct (B' f g1 E1) as (g2 & E2 & Y2). exists g2. split; congruence.
Qed.
Lemma run_ext w w' : ext w w' -> forall n f o r, run_func n w f o = Some r -> forall n', (n <= n')%nat -> run_func n' w' f o = Some r.
Proof.
  intros (A & B & C). induction n as [|n IH]; intros f o r E n' L; [discriminate|]. destruct n' as [|n']; [lia|]. cbn in E |- *.
  destruct (nth_error (funcs w) f) as [g|] eqn:G; [|discriminate]. cbn [bind] in E. destruct (B f g G) as (g' & G' & Y). rewrite G'. cbn [bind]. rewrite Y.
  destruct (body g) as [|b]; [exact E|]. destruct (nth_error (bounds w) b) as [x|] eqn:X; [|discriminate]. rewrite (C b x X). cbn [bind] in *.
  destruct (run_func n w (b_func x) (b_obj x)) as [r'|] eqn:R; [|discriminate]. rewrite (IH _ _ _ R n') by lia. exact E.
Qed.

(** ** every world of a history *)
Record fine (w : world) : Prop := Fine {
  f_user : (n_user w <= length (funcs w))%nat;
  f_body : forall f g, nth_error (funcs w) f = Some g -> (f < n_user w)%nat -> body g = User;
  f_bound : forall b x, nth_error (bounds w) b = Some x -> (b_func x < length (funcs w))%nat /\ is_live w (b_obj x) = true;
  f_cache : forall a f b, In (a, f, b) (cache w) -> exists x y, nth_error (bounds w) b = Some x /\ b_func x = f /\ nth_error (objs w) (b_obj x) = Some y /\ live y = true /\ address y = a;
  f_addr : forall i j x y, nth_error (objs w) i = Some x -> nth_error (objs w) j = Some y -> live x = true -> live y = true -> address x = address y -> i = j }.

Lemma start_fine fs : fine (start fs).
Proof.
  constructor; unfold start; cbn [n_user funcs objs bounds cache].
  - now rewrite map_length.
  - intros f g E _. rewrite nth_error_map in E. destruct (nth_error fs f); [|discriminate]. now injection E as <-.
  - intros b x E. now destruct b.
  - intros a f b [].
  - intros [|i] j x y E; discriminate.
Qed.

Lemma flag_same w f args : objs (flag w f args) = objs w /\ bounds (flag w f args) = bounds w /\ cache (flag w f args) = cache w /\
  length (funcs (flag w f args)) = length (funcs w) /\ n_user (flag w f args) = n_user w.
Proof. unfold flag. destruct (nth_error (funcs w) f); cbn [objs bounds cache funcs n_user]; rewrite ?set_nth_length; auto. Qed.
Lemma flag_body w f args k g : nth_error (funcs w) k = Some g -> exists g', nth_error (funcs (flag w f args)) k = Some g' /\ body g' = body g.
Proof.
  intros E. unfold flag. destruct (nth_error (funcs w) f) as [h|] eqn:H; [|eauto]. cbn [funcs]. rewrite set_nth_error, H.
  destruct (Nat.eqb_spec k f) as [->|N]; [|eauto]. rewrite E in H. injection H as <-. eexists. split; reflexivity.
Qed.
Lemma flag_body_inv w f args k g' : nth_error (funcs (flag w f args)) k = Some g' -> exists g, nth_error (funcs w) k = Some g /\ body g' = body g.
Proof.
  unfold flag. destruct (nth_error (funcs w) f) as [h|] eqn:H; [|eauto]. cbn [funcs]. rewrite set_nth_error, H.
  destruct (Nat.eqb_spec k f) as [->|N]; [|eauto]. intros [= <-]. exists h. split; [exact H|reflexivity].
Qed.
Lemma flag_ext w f args : ext w (flag w f args).
Proof.
  destruct (flag_same w f args) as (A & B & C & D & E). split; [exact E|]. split; [|now rewrite B]. intros k g H. now apply flag_body.
Qed.

(** what orchestrate does when it does something *)
Definition did (w : world) (o : nat) (x : object) (f : nat) (k : config) (m : string) (w' : world) : Prop :=
  n_user w' = n_user w /\
  (forall i, nth_error (objs w') i = if (i =? o)%nat then Some (if (m =? "__call__")%string
     then Obj (Sub [("__call__"%string, length (funcs w))] (class x)) (attrs x) (address x) (live x)
     else Obj (class x) (put (attrs x) m (match find (cache w) (address x) f with Some b => b | None => length (bounds w) end)) (address x) (live x))
     else nth_error (objs w) i) /\
  bounds w' = (if find (cache w) (address x) f then bounds w else bounds w ++ [Bound f k o]) /\
  cache w' = (if find (cache w) (address x) f then cache w else cache w ++ [(address x, f, length (bounds w))]) /\
  (forall i g, nth_error (funcs w) i = Some g -> exists g', nth_error (funcs w') i = Some g' /\ body g' = body g) /\
  (forall i g', nth_error (funcs w') i = Some g' -> (i < length (funcs w))%nat -> exists g, nth_error (funcs w) i = Some g /\ body g' = body g) /\
  length (funcs w') = ((if (m =? "__call__")%string then 1 else 0) + length (funcs w))%nat /\
  ((m =? "__call__")%string = true -> nth_error (funcs w') (length (funcs w)) = Some (Func [] (Calls (match find (cache w) (address x) f with Some b => b | None => length (bounds w) end)))).
Lemma orchestrate_did w o k m args x f : orchestrated k = true -> nth_error (objs w) o = Some x -> method_of (class x) m = Some f ->
  did w o x f k m (fst (orchestrate w o k m args)).
Proof.
  intros K X M. unfold orchestrate. rewrite K, X, M. cbn [negb]. unfold bind_to. destruct (flag_same w f args) as (A & B & C & D & E). rewrite C, B.
  assert (Q : forall w1, n_user w1 = n_user w -> objs w1 = objs w -> funcs w1 = funcs (flag w f args) ->
    bounds w1 = (if find (cache w) (address x) f then bounds w else bounds w ++ [Bound f k o]) ->
    cache w1 = (if find (cache w) (address x) f then cache w else cache w ++ [(address x, f, length (bounds w))]) ->
    let b := match find (cache w) (address x) f with Some b => b | None => length (bounds w) end in
    did w o x f k m (fst (if (m =? "__call__")%string
      then (World (n_user w1) (funcs w1 ++ [Func [] (Calls b)]) (set_nth (objs w1) o (Obj (Sub [("__call__"%string, length (funcs w1))] (class x)) (attrs x) (address x) (live x))) (bounds w1) (cache w1), true)
      else (World (n_user w1) (funcs w1) (set_nth (objs w1) o (Obj (class x) (put (attrs x) m b) (address x) (live x))) (bounds w1) (cache w1), true)))).
  { intros w1 Q1 Q2 Q3 Q4 Q5 b. unfold did. fold b. destruct (m =? "__call__")%string; cbn [fst n_user funcs objs bounds cache]; rewrite Q2, Q3.
    - split; [exact Q1|]. split; [intros i; rewrite set_nth_error, X, D; reflexivity|]. split; [exact Q4|]. split; [exact Q5|].
      split. { intros i g G. destruct (flag_body w f args i g G) as (g' & G' & Y). exists g'. split; [|exact Y]. rewrite nth_error_app1; [exact G'|]. now apply nth_lt in G'. }
      split. { intros i g' G L. rewrite nth_error_app1 in G by lia. now apply flag_body_inv in G. }
      split; [rewrite app_length, D; cbn; lia|]. intros _. rewrite nth_app, D, Nat.eqb_refl. reflexivity.
    - split; [exact Q1|]. split; [intros i; rewrite set_nth_error, X; reflexivity|]. split; [exact Q4|]. split; [exact Q5|].
      split; [intros i g G; now apply flag_body|]. split; [intros i g' G L; now apply flag_body_inv in G|]. split; [cbn; lia|discriminate]. }
  destruct (find (cache w) (address x) f) as [b|] eqn:F; cbn [fst snd]; [apply Q; auto|].
  apply (Q (World (n_user (flag w f args)) (funcs (flag w f args)) (objs (flag w f args)) (bounds w ++ [Bound f k o]) (cache w ++ [(address x, f, length (bounds w))]))); auto.
Qed.
Lemma orchestrate_not w o k m args : (orchestrated k = false \/ exists x, nth_error (objs w) o = Some x /\ method_of (class x) m = None) -> fst (orchestrate w o k m args) = w.
Proof.
  intros [K|(x & X & M)]; unfold orchestrate.
  - now rewrite K.
  - rewrite X, M. now destruct (orchestrated k).
Qed.

Lemma fine_objs w os : fine w -> (forall i, is_live w i = true -> nth_error os i = nth_error (objs w) i) ->
  (forall i j x y, nth_error os i = Some x -> nth_error os j = Some y -> live x = true -> live y = true -> address x = address y -> i = j) ->
  fine (World (n_user w) (funcs w) os (bounds w) (cache w)).
Proof.
  intros [A B C D E] H N. constructor; cbn [n_user funcs objs bounds cache]; auto.
  - intros b x X. destruct (C b x X) as [C1 C2]. split; [exact C1|]. unfold is_live. cbn [objs]. rewrite (H _ C2). exact C2.
  - intros a f b I. destruct (D a f b I) as (x & y & D1 & D2 & D3 & D4 & D5). exists x, y. split; [exact D1|]. split; [exact D2|]. split; [|auto].
    rewrite H; [exact D3|]. unfold is_live. now rewrite D3.
Qed.
Lemma in_use_false w a i x : in_use w a = false -> nth_error (objs w) i = Some x -> live x = true -> address x <> a.
Proof.
  unfold in_use. intros U X L E. apply Bool.not_true_iff_false in U. apply U. apply existsb_exists. exists x. split; [now apply nth_error_In in X|]. rewrite L, E. cbn. apply Z.eqb_refl.
Qed.
Lemma add_fine w c t a : fine w -> in_use w a = false -> fine (World (n_user w) (funcs w) (objs w ++ [Obj c t a true]) (bounds w) (cache w)).
Proof.
  intros F U. apply fine_objs; [exact F| |].
  - intros i L. apply nth_error_app1. unfold is_live in L. destruct (nth_error (objs w) i) eqn:E; [now apply nth_lt in E|discriminate].
  - intros i j x y X Y LX LY. rewrite nth_app in X, Y.
    destruct (Nat.eqb_spec i (length (objs w))) as [->|Ni], (Nat.eqb_spec j (length (objs w))) as [->|Nj]; [reflexivity| | |now apply (f_addr w F)].
    + injection X as <-. cbn [address]. intros E. exfalso. apply (in_use_false w a j y U Y LY). auto.
    + injection Y as <-. cbn [address]. intros E. exfalso. apply (in_use_false w a i x U X LX). auto.
Qed.
Lemma did_fine w o x f k m w' : fine w -> nth_error (objs w) o = Some x -> live x = true -> (f < length (funcs w))%nat -> did w o x f k m w' -> fine w'.
Proof.
  intros [A B C D E] X L F (H1 & H2 & H3 & H4 & H5 & H6 & H7 & H8).
  assert (LV : forall i, is_live w i = true -> is_live w' i = true).
  { intros i. unfold is_live. rewrite H2. destruct (Nat.eqb_spec i o) as [->|N]; [|auto]. intros _. destruct (m =? "__call__")%string; exact L. }
  assert (AD : forall i y', nth_error (objs w') i = Some y' -> exists y, nth_error (objs w) i = Some y /\ live y' = live y /\ address y' = address y).
  { intros i y' Y. rewrite H2 in Y. destruct (Nat.eqb_spec i o) as [->|N]; [|eauto]. injection Y as <-. exists x. split; [exact X|]. destruct (m =? "__call__")%string; auto. }
  assert (AD' : forall i y, nth_error (objs w) i = Some y -> exists y', nth_error (objs w') i = Some y' /\ live y' = live y /\ address y' = address y).
  { intros i y Y. rewrite H2. destruct (Nat.eqb_spec i o) as [->|N]; [|eauto]. rewrite X in Y. injection Y as <-. eexists. split; [reflexivity|]. destruct (m =? "__call__")%string; auto. }
  constructor; rewrite ?H1.
  - rewrite H7. lia.
  - intros i g' G Li. destruct (H6 i g' G) as (g & G2 & Y); [lia|]. rewrite Y. now apply (B i g).
  - intros b y Y. enough (Q : (b_func y < length (funcs w))%nat /\ is_live w (b_obj y) = true) by (destruct Q; split; [rewrite H7; lia|auto]).
    rewrite H3 in Y. destruct (find (cache w) (address x) f); [now apply (C b)|]. rewrite nth_app in Y. destruct (b =? length (bounds w))%nat; [|now apply (C b)].
    injection Y as <-. cbn [b_func b_obj]. split; [exact F|]. unfold is_live. now rewrite X.
  - intros a g b I. rewrite H4 in I. rewrite H3. destruct (find (cache w) (address x) f) eqn:FF.
    + destruct (D a g b I) as (u & v & D1 & D2 & D3 & D4 & D5). destruct (AD' _ _ D3) as (v' & V1 & V2 & V3). exists u, v'. rewrite V2, V3. auto.
    + apply in_app_iff in I as [I|[I|[]]].
      * destruct (D a g b I) as (u & v & D1 & D2 & D3 & D4 & D5). destruct (AD' _ _ D3) as (v' & V1 & V2 & V3). exists u, v'. rewrite V2, V3.
        rewrite nth_error_app1 by (now apply nth_lt in D1). auto.
      * injection I as <- <- <-. destruct (AD' _ _ X) as (v' & V1 & V2 & V3). exists (Bound f k o), v'. rewrite nth_app, Nat.eqb_refl, V2, V3. auto.
  - intros i j u v U V LU LV' EE. destruct (AD i u U) as (u0 & U0 & U1 & U2), (AD j v V) as (v0 & V0 & V1 & V2).
    apply (E i j u0 v0 U0 V0); congruence.
Qed.

(** the functions of the classes of objects are there *)
Definition known (w : world) : Prop := forall i x m f, nth_error (objs w) i = Some x -> method_of (class x) m = Some f -> (f < length (funcs w))%nat.
Lemma functions_in c m f : method_of c m = Some f -> In f (functions_of c).
Proof.
  induction c as [|own base IH]; cbn; [discriminate|]. rewrite in_app_iff. destruct (get own m) as [f'|] eqn:E; [|auto]. intros [= ->]. left.
  apply get_in in E. now apply (in_map snd) in E.
Qed.
Lemma user_class n c m f : forallb (fun f => (f <? n)%nat) (functions_of c) = true -> method_of c m = Some f -> (f < n)%nat.
Proof. intros A M. apply functions_in in M. rewrite forallb_forall in A. apply A in M. now apply Nat.ltb_lt. Qed.
Lemma did_known w o x f k m w' : known w -> nth_error (objs w) o = Some x -> did w o x f k m w' -> method_of (class x) m = Some f -> known w'.
Proof.
  intros K X (H1 & H2 & H3 & H4 & H5 & H6 & H7 & H8) M. intros i y m' g Y G. rewrite H2 in Y. rewrite H7. destruct (i =? o)%nat; [|specialize (K i y m' g Y G); lia].
  injection Y as <-. destruct (m =? "__call__")%string; cbn [class] in G.
  - cbn [method_of get] in G. destruct (m' =? "__call__")%string; [injection G as <-; lia|]. specialize (K o x m' g X G). lia.
  - specialize (K o x m' g X G). lia.
Qed.
Lemma step_fine w p : fine w -> known w -> fine (step w p) /\ known (step w p).
Proof.
  intros F K. destruct p as [c a|o a|o|o k m args]; cbn [step].
  - destruct (forallb _ _) eqn:Fa; cbn [andb]; [|auto]. destruct (in_use w a) eqn:U; cbn [negb]; [auto|]. split; [now apply add_fine|].
    intros i x m f X M. cbn [funcs objs] in *. rewrite nth_app in X. destruct (i =? length (objs w))%nat; [|now apply (K i x m f)].
    injection X as <-. cbn [class] in M. pose proof (user_class _ _ _ _ Fa M). pose proof (f_user w F). lia.
  - destruct (nth_error (objs w) o) as [x|] eqn:X; [|auto]. destruct (live x) eqn:L; cbn [andb]; [|auto]. destruct (in_use w a) eqn:U; cbn [negb]; [auto|]. split; [now apply add_fine|].
    intros i y m f Y M. cbn [funcs objs] in *. rewrite nth_app in Y. destruct (i =? length (objs w))%nat; [|now apply (K i y m f)].
    injection Y as <-. cbn [class] in M. now apply (K o x m f).
  - destruct (nth_error (objs w) o) as [x|] eqn:X; [|auto]. destruct (existsb _ _) eqn:B; [auto|]. split.
    + assert (NB : forall b y, nth_error (bounds w) b = Some y -> b_obj y <> o).
      { intros b y Y E. apply Bool.not_true_iff_false in B. apply B. apply existsb_exists. exists y. split; [now apply nth_error_In in Y|now apply Nat.eqb_eq]. }
      destruct F as [A1 B1 C1 D1 E1]. constructor; cbn [n_user funcs objs bounds cache]; auto.
      * intros b y Y. destruct (C1 b y Y) as [C2 C3]. split; [exact C2|]. unfold is_live in *. cbn [objs]. rewrite set_nth_error. destruct (Nat.eqb_spec (b_obj y) o) as [E|N]; [now apply NB in Y|exact C3].
      * intros a f b I. destruct (D1 a f b I) as (u & v & U1 & U2 & U3 & U4 & U5). exists u, v. split; [exact U1|]. split; [exact U2|]. split; [|auto]. rewrite set_nth_error.
        destruct (Nat.eqb_spec (b_obj u) o) as [E|N]; [now apply NB in U1|exact U3].
      * intros i j u v U V LU LV. rewrite set_nth_error in U, V. rewrite X in U, V. destruct (i =? o)%nat; [injection U as <-; discriminate|]. destruct (j =? o)%nat; [injection V as <-; discriminate|]. now apply (E1 i j).
    + intros i y m f Y M. cbn [funcs objs] in *. rewrite set_nth_error, X in Y. destruct (i =? o)%nat; [injection Y as <-; cbn in M; now apply (K o x m f)|now apply (K i y m f)].
  - destruct (is_live w o) eqn:L; [|auto]. unfold is_live in L. destruct (nth_error (objs w) o) as [x|] eqn:X; [|discriminate].
    destruct (orchestrated k) eqn:Ok; [|rewrite orchestrate_not by auto; auto]. destruct (method_of (class x) m) as [f|] eqn:M; [|rewrite orchestrate_not by eauto; auto].
    pose proof (orchestrate_did w o k m args x f Ok X M) as Dd. split; [eapply did_fine; eauto|]. eapply (did_known w o x f k m); eauto.
Qed.
Lemma steps_fine l : forall w, fine w -> known w -> fine (steps w l) /\ known (steps w l).
Proof. induction l as [|p l IH]; intros w F K; [auto|]. destruct (step_fine w p F K). cbn. now apply IH. Qed.
Lemma start_known fs : known (start fs).
Proof. intros [|i] x m f E; discriminate. Qed.

Lemma did_ext w o x f k m w' : did w o x f k m w' -> ext w w'.
Proof.
  intros (H1 & H2 & H3 & H4 & H5 & H6 & H7 & H8). split; [exact H1|]. split; [exact H5|]. intros b y Y. rewrite H3. destruct (find _ _ _); [exact Y|]. rewrite nth_error_app1; [exact Y|]. now apply nth_lt in Y.
Qed.
Lemma ext_same w os : ext w (World (n_user w) (funcs w) os (bounds w) (cache w)).
Proof. split; [reflexivity|]. split; cbn [funcs bounds]; eauto. Qed.
Lemma step_ext w p : ext w (step w p).
Proof.
  destruct p as [c a|o a|o|o k m args]; cbn [step].
  - destruct (_ && _); [apply ext_same|apply ext_refl].
  - destruct (nth_error _ _); [destruct (_ && _)|]; apply ext_same || apply ext_refl.
  - destruct (nth_error _ _); [destruct (existsb _ _)|]; apply ext_same || apply ext_refl.
  - destruct (is_live w o) eqn:L; [|apply ext_refl]. unfold is_live in L. destruct (nth_error (objs w) o) as [x|] eqn:X; [|discriminate].
    destruct (orchestrated k) eqn:Ok; [|rewrite orchestrate_not by auto; apply ext_refl]. destruct (method_of (class x) m) as [f|] eqn:M; [|rewrite orchestrate_not by eauto; apply ext_refl].
    eapply did_ext, orchestrate_did; eauto.
Qed.

(** ** one object *)
Lemma configs_app l p o m : configs (l ++ [p]) o m = configs l o m ++ configs [p] o m.
Proof. induction l as [|q l IH]; [reflexivity|]. destruct q; cbn [app configs]; try exact IH. destruct (_ && _); [cbn; now rewrite IH|exact IH]. Qed.
Lemma first_app l p o c f : first_config (l ++ [p]) o c f = match first_config l o c f with Some k => Some k | None => first_config [p] o c f end.
Proof. induction l as [|q l IH]; [reflexivity|]. destruct q; cbn [app first_config]; try exact IH. destruct (_ && _); [reflexivity|exact IH]. Qed.
Lemma configs_first l o c m f : method_of c m = Some f -> configs l o m <> [] -> exists k, first_config l o c f = Some k.
Proof.
  intros M. induction l as [|q l IH]; [easy|]. destruct q as [| | |o' k m' args]; cbn [configs first_config]; try exact IH.
  destruct (Nat.eqb_spec o' o) as [->|]; cbn [andb]; [|exact IH]. destruct (String.eqb_spec m' m) as [->|]; cbn [andb].
  - destruct (orchestrated k); cbn [andb]; [|exact IH]. rewrite M, Nat.eqb_refl. eauto.
  - destruct (orchestrated k); cbn [andb]; [|exact IH]. destruct (method_of c m') as [f'|]; [destruct (f' =? f)%nat; [eauto|exact IH]|exact IH].
Qed.

Local Notation CALL := "__call__"%string.
Record held (w : world) (l : list op) (o : nat) (c : cls) (a : Z) (x : object) : Prop := Held {
  h_obj : nth_error (objs w) o = Some x; h_live : live x = true; h_addr : address x = a;
  h_class : forall m, m <> CALL -> method_of (class x) m = method_of c m;
  h_none : method_of c CALL = None -> method_of (class x) CALL = None;
  h_user : forall m f, method_of c m = Some f -> (f < n_user w)%nat;
  h_cache : forall f, (f < n_user w)%nat ->
    match first_config l o c f with
    | Some k => exists b, find (cache w) a f = Some b /\ nth_error (bounds w) b = Some (Bound f k o)
    | None => find (cache w) a f = None end;
  h_attrs : forall m f, m <> CALL -> method_of c m = Some f ->
    match configs l o m with [] => get (attrs x) m = None | _ => get (attrs x) m = find (cache w) a f end;
  h_call : forall f, method_of c CALL = Some f ->
    match configs l o CALL with
    | [] => method_of (class x) CALL = Some f
    | _ :: ks => exists g k, method_of (class x) CALL = Some g /\ (n_user w <= g)%nat /\ find (cache w) a g = None /\ first_config l o c f = Some k /\
                            forall o', run_func (S g) w g o' = Some (nest (Program k (Python f o)) ks)
    end }.

Lemma run_user w f o : fine w -> (f < n_user w)%nat -> forall n, run_func (S n) w f o = Some (Python f o).
Proof.
  intros F L n. cbn. pose proof (f_user w F). destruct (nth_error (funcs w) f) as [g|] eqn:G; [|apply nth_error_None in G; lia]. cbn [bind]. now rewrite (f_body w F f g G L).
Qed.

(** steps that leave the object, its entries of the cache and its part of the history alone *)
Lemma held_frame w w' l p o c a x : held w l o c a x -> ext w w' -> nth_error (objs w') o = Some x -> (forall f, find (cache w') a f = find (cache w) a f) ->
  (forall m, configs [p] o m = []) -> (forall f, first_config [p] o c f = None) -> held w' (l ++ [p]) o c a x.
Proof.
  intros [A B C D E F G H I] X O Q P1 P2. destruct X as (X1 & X2 & X3). pose proof (conj X1 (conj X2 X3) : ext w w') as X.
  assert (FC : forall f, first_config (l ++ [p]) o c f = first_config l o c f) by (intros f; rewrite first_app, P2; now destruct (first_config l o c f)).
  assert (CC : forall m, configs (l ++ [p]) o m = configs l o m) by (intros m; now rewrite configs_app, P1, app_nil_r).
  constructor; auto; rewrite ?X1; auto.
  - intros f L. rewrite FC, Q. specialize (G f L). destruct (first_config l o c f); [|exact G]. destruct G as (b & G1 & G2). eauto.
  - intros m f N M. rewrite CC, Q. now apply H.
  - intros f M. rewrite CC. specialize (I f M). destruct (configs l o CALL); [exact I|]. destruct I as (g & k & I1 & I2 & I3 & I4 & I5). exists g, k. rewrite Q, FC.
    split; [exact I1|]. split; [exact I2|]. split; [exact I3|]. split; [exact I4|]. intros o'. now apply (run_ext w w' X (S g) g o').
Qed.

Lemma nest_app r ks k : nest r (ks ++ [k]) = Program k (nest r ks).
Proof. unfold nest. now rewrite fold_left_app. Qed.

Lemma held_step w l p o c a x : fine w -> known w -> held w l o c a x -> is_live (step w p) o = true -> exists x', held (step w p) (l ++ [p]) o c a x'.
Proof.
  intros F K Hd LV. pose proof (step_ext w p) as X. pose proof Hd as [A B C D E FU G H I].
  destruct p as [c' a'|o' a'|o'|o' k m args].
  1,2,3: exists x; apply (held_frame w _ l _ o c a x Hd X); [|intros f|reflexivity|reflexivity]; cbn [step].
  - destruct (_ && _); [|exact A]. cbn [objs]. rewrite nth_error_app1; [exact A|now apply nth_lt in A].
  - now destruct (_ && _).
  - destruct (nth_error (objs w) o'); [|exact A]. destruct (_ && _); [|exact A]. cbn [objs]. rewrite nth_error_app1; [exact A|now apply nth_lt in A].
  - destruct (nth_error (objs w) o'); [now destruct (_ && _)|reflexivity].
  - cbn [step] in LV. destruct (nth_error (objs w) o') as [y|] eqn:Y; [|exact A]. destruct (existsb _ _); [exact A|]. cbn [objs]. unfold is_live in LV. cbn [objs] in LV.
    rewrite set_nth_error, Y in LV |- *. destruct (Nat.eqb_spec o o') as [->|N]; [discriminate|exact A].
  - destruct (nth_error (objs w) o'); [now destruct (existsb _ _)|reflexivity].
  - cbn [step] in *. destruct (is_live w o') eqn:L'.
    2:{ exists x. apply (held_frame w w l _ o c a x Hd X A); [reflexivity| |]; intros; cbn; destruct (Nat.eqb_spec o' o) as [->|]; try reflexivity; unfold is_live in L'; rewrite A in L'; congruence. }
    unfold is_live in L'. destruct (nth_error (objs w) o') as [y|] eqn:Y; [|discriminate].
    destruct (orchestrated k) eqn:Ok.
    2:{ rewrite orchestrate_not in * by auto. exists x. apply (held_frame w w l _ o c a x Hd X A); [reflexivity| |]; intros; cbn; rewrite Ok; destruct (o' =? o)%nat; cbn; try reflexivity. now destruct (m =? m0)%string. }
    destruct (method_of (class y) m) as [g|] eqn:M.
    2:{ rewrite orchestrate_not in * by eauto. destruct (Nat.eqb_spec o' o) as [->|N].
        - rewrite A in Y. injection Y as <-. assert (MC : method_of c m = None).
          { destruct (string_dec m CALL) as [->|N]; [|now rewrite <- D by exact N]. destruct (method_of c CALL) as [f|] eqn:MC; [|reflexivity]. exfalso. specialize (I f eq_refl).
            destruct (configs l o CALL); [congruence|]. destruct I as (g & k' & I1 & _). congruence. }
          assert (FC : forall f, first_config (l ++ [Orchestrate o k m args]) o c f = first_config l o c f).
          { intros f. rewrite first_app. destruct (first_config l o c f); [reflexivity|]. cbn. rewrite Nat.eqb_refl, Ok, MC. reflexivity. }
          assert (CC : forall m', m' <> m -> configs (l ++ [Orchestrate o k m args]) o m' = configs l o m').
          { intros m' N. rewrite configs_app. cbn. rewrite Nat.eqb_refl, Ok. destruct (String.eqb_spec m m'); [congruence|]. cbn. apply app_nil_r. }
          exists x. constructor; auto.
          + intros f Lf. rewrite FC. now apply G.
          + intros m' f N M'. rewrite CC by congruence. now apply H.
          + intros f M'. rewrite CC by congruence. rewrite FC. now apply I.
        - exists x. apply (held_frame w w l _ o c a x Hd X A); [reflexivity| |]; intros; cbn; (destruct (Nat.eqb_spec o' o); [congruence|reflexivity]). }
    pose proof (orchestrate_did w o' k m args y g Ok Y M) as Dd. set (w' := fst (orchestrate w o' k m args)) in *.
    pose proof Dd as (H1 & H2 & H3 & H4 & H5 & H6 & H7 & H8).
    destruct (Nat.eqb_spec o' o) as [->|N].
    2:{ exists x. apply (held_frame w w' l _ o c a x Hd X).
        - rewrite H2. destruct (Nat.eqb_spec o o'); [congruence|exact A].
        - intros f. rewrite H4. destruct (find (cache w) (address y) g); [reflexivity|]. rewrite find_app. destruct (find (cache w) a f); [reflexivity|]. cbn.
          destruct (Z.eqb_spec a (address y)) as [Ea|]; [|reflexivity]. exfalso. apply N. symmetry. apply (f_addr w F o o' x y A Y B L'). congruence.
        - intros m'. cbn. destruct (Nat.eqb_spec o' o); [congruence|reflexivity].
        - intros f. cbn. destruct (Nat.eqb_spec o' o); [congruence|reflexivity]. }
    rewrite A in Y. injection Y as <-. rewrite C in *.
    set (b := match find (cache w) a g with Some b => b | None => length (bounds w) end) in *.
    assert (Kn : (g < length (funcs w))%nat) by (apply (K o x m g A M)).
    assert (FB : forall k', (match find (cache w) a g with Some b => nth_error (bounds w) b = Some (Bound g k' o) | None => k' = k end) -> nth_error (bounds w') b = Some (Bound g k' o)).
    { intros k' Q. rewrite H3. unfold b. destruct (find (cache w) a g) as [b'|]; [exact Q|]. subst k'. now rewrite nth_app, Nat.eqb_refl. }
    assert (BB : forall b' z, nth_error (bounds w) b' = Some z -> nth_error (bounds w') b' = Some z) by apply X.
    assert (FW : forall f, find (cache w') a f = if (f =? g)%nat then Some b else find (cache w) a f).
    { intros f. rewrite H4. unfold b. destruct (Nat.eqb_spec f g) as [->|Nf].
      - destruct (find (cache w) a g) eqn:Q; [exact Q|]. rewrite find_app, Q. cbn. now rewrite Z.eqb_refl, Nat.eqb_refl.
      - destruct (find (cache w) a g) eqn:Q; [reflexivity|]. rewrite find_app. destruct (find (cache w) a f); [reflexivity|]. cbn. destruct (Nat.eqb_spec f g); [congruence|]. now rewrite andb_false_r. }
    destruct (String.eqb_spec m CALL) as [->|Nm].
    + (* __call__ *)
      destruct (method_of c CALL) as [f0|] eqn:M0; [|rewrite E in M by reflexivity; discriminate]. specialize (I f0 eq_refl). pose proof (FU _ _ M0) as U0.
      assert (FC : forall f, first_config (l ++ [Orchestrate o k CALL args]) o c f = match first_config l o c f with Some k' => Some k' | None => if (f0 =? f)%nat then Some k else None end).
      { intros f. rewrite first_app. destruct (first_config l o c f); [reflexivity|]. cbn. rewrite Nat.eqb_refl, Ok, M0. reflexivity. }
      assert (CC : forall m', m' <> CALL -> configs (l ++ [Orchestrate o k CALL args]) o m' = configs l o m').
      { intros m' N. rewrite configs_app. cbn [configs]. rewrite Nat.eqb_refl, Ok. destruct (String.eqb_spec CALL m'); [congruence|]. apply app_nil_r. }
      assert (CA : configs (l ++ [Orchestrate o k CALL args]) o CALL = configs l o CALL ++ [k]).
      { rewrite configs_app. cbn [configs]. rewrite Nat.eqb_refl, Ok. reflexivity. }
      (* is the function at hand the user's or a wrapper? *)
      assert (QQ : (configs l o CALL = [] /\ g = f0) \/ (exists k1 ks, configs l o CALL = k1 :: ks /\ (n_user w <= g)%nat /\ find (cache w) a g = None /\ exists k0, first_config l o c f0 = Some k0 /\ forall o', run_func (S g) w g o' = Some (nest (Program k0 (Python f0 o)) ks))).
      { destruct (configs l o CALL) as [|k1 ks]; [left; split; [reflexivity|congruence]|right]. destruct I as (g' & k0 & I1 & I2 & I3 & I4 & I5). assert (g' = g) by congruence. subst g'. exists k1, ks. eauto 10. }
      assert (FW0 : forall f, (f < n_user w)%nat -> match first_config (l ++ [Orchestrate o k CALL args]) o c f with Some k' => exists b', find (cache w') a f = Some b' /\ nth_error (bounds w') b' = Some (Bound f k' o) | None => find (cache w') a f = None end).
      { intros f Lf. rewrite FC, FW. specialize (G f Lf). destruct (Nat.eqb_spec f g) as [->|Nf].
        - destruct QQ as [[_ ->]|(k1 & ks & _ & Q & _)]; [|lia]. destruct (first_config l o c f0) as [k'|].
          + destruct G as (b' & G1 & G2). exists b. split; [reflexivity|]. apply FB. now rewrite G1.
          + rewrite Nat.eqb_refl. exists b. split; [reflexivity|]. apply FB. now rewrite G.
        - destruct (first_config l o c f) as [k'|] eqn:Q0; [destruct G as (b' & G1 & G2); eauto|]. destruct (Nat.eqb_spec f0 f) as [->|]; [|exact G].
          exfalso. destruct QQ as [[_ ->]|(k1 & ks & Q1 & Q2 & _ & k0 & Q3 & _)]; [congruence|]. specialize (FC f). destruct (configs_first l o c CALL f M0) as (k' & Q); [congruence|]. congruence. }
      exists (Obj (Sub [(CALL, length (funcs w))] (class x)) (attrs x) a (live x)).
      constructor; cbn [class attrs address live]; rewrite ?H1; auto.
      * rewrite H2, Nat.eqb_refl. reflexivity.
      * intros m' N. cbn [method_of get]. destruct (String.eqb_spec m' CALL); [congruence|]. now apply D.
      * congruence.
      * intros m' f N M'. rewrite CC by exact N. specialize (H m' f N M'). destruct (configs l o m') eqn:Q; [exact H|]. rewrite H, FW.
        destruct (Nat.eqb_spec f g) as [->|]; [|reflexivity]. unfold b. pose proof (configs_first l o c m' g M') as [k' Q']; [congruence|]. specialize (G g (FU _ _ M')). rewrite Q' in G. destruct G as (b' & G1 & _). now rewrite G1.
      * intros f Q. rewrite M0 in Q. injection Q as <-. rewrite CA.
        assert (R : forall fuel r, run_func fuel w g o = Some r -> (fuel <= length (funcs w))%nat -> forall k0, nth_error (bounds w') b = Some (Bound g k0 o) -> forall o', run_func (S (length (funcs w))) w' (length (funcs w)) o' = Some (Program k0 r)).
        { intros fuel r Rr Lf k0 Q o'. cbn [run_func]. rewrite (H8 eq_refl). cbn [bind body]. rewrite Q. cbn [bind b_func b_obj b_config]. rewrite (run_ext w w' X fuel g o r Rr) by exact Lf. reflexivity. }
        assert (NC : find (cache w') a (length (funcs w)) = None).
        { rewrite FW. destruct (Nat.eqb_spec (length (funcs w)) g); [lia|]. apply find_none. intros b' J. destruct (f_cache w F _ _ _ J) as (u & v & J1 & J2 & _). destruct (f_bound w F _ _ J1) as [J3 _]. lia. }
        pose proof (FW0 f0 U0) as FW1.
        destruct QQ as [[Q ->]|(k1 & ks & Q & Q1 & Q2 & k0 & Q3 & Q4)]; rewrite Q; cbn [app].
        -- destruct (first_config (l ++ [Orchestrate o k CALL args]) o c f0) as [k'|] eqn:QF; [|rewrite FC in QF; rewrite Nat.eqb_refl in QF; destruct (first_config l o c f0); discriminate].
           destruct FW1 as (b' & FW1 & FW2). rewrite FW, Nat.eqb_refl in FW1. injection FW1 as <-. exists (length (funcs w)), k'.
           split; [reflexivity|]. split; [apply (f_user w F)|]. split; [exact NC|]. split; [reflexivity|]. unfold nest. cbn [fold_left].
           eapply (R 1%nat); [now apply run_user|lia|exact FW2].
        -- exists (length (funcs w)), k0. split; [reflexivity|]. split; [apply (f_user w F)|]. split; [exact NC|]. split; [rewrite FC, Q3; reflexivity|]. rewrite nest_app.
           apply (R (S g) _ (Q4 o)); [lia|]. apply FB. now rewrite Q2.
    + (* another method *)
      rewrite D in M by exact Nm. pose proof (FU _ _ M) as Ug.
      assert (FC : forall f, first_config (l ++ [Orchestrate o k m args]) o c f = match first_config l o c f with Some k' => Some k' | None => if (g =? f)%nat then Some k else None end).
      { intros f. rewrite first_app. destruct (first_config l o c f); [reflexivity|]. cbn. rewrite Nat.eqb_refl, Ok, M. reflexivity. }
      assert (CC : forall m', m' <> m -> configs (l ++ [Orchestrate o k m args]) o m' = configs l o m').
      { intros m' N. rewrite configs_app. cbn [configs]. rewrite Nat.eqb_refl, Ok. destruct (String.eqb_spec m m'); [congruence|]. apply app_nil_r. }
      assert (CA : configs (l ++ [Orchestrate o k m args]) o m = configs l o m ++ [k]).
      { rewrite configs_app. cbn [configs]. rewrite Nat.eqb_refl, Ok, String.eqb_refl. reflexivity. }
      exists (Obj (class x) (put (attrs x) m b) a (live x)).
      constructor; cbn [class attrs address live]; rewrite ?H1; auto.
      * rewrite H2, Nat.eqb_refl. reflexivity.
      * intros f Lf. rewrite FC, FW. specialize (G f Lf). destruct (Nat.eqb_spec f g) as [->|Nf].
        -- rewrite Nat.eqb_refl. destruct (first_config l o c g) as [k'|].
           ++ destruct G as (b' & G1 & G2). exists b. split; [reflexivity|]. apply FB. now rewrite G1.
           ++ exists b. split; [reflexivity|]. apply FB. now rewrite G.
        -- destruct (Nat.eqb_spec g f); [congruence|]. destruct (first_config l o c f) as [k'|]; [destruct G as (b' & G1 & G2); eauto|exact G].
      * intros m' f N M'. rewrite get_put, FW. destruct (String.eqb_spec m' m) as [->|Nm'].
        -- rewrite CA. assert (f = g) by congruence. subst f. rewrite Nat.eqb_refl. now destruct (configs l o m).
        -- rewrite CC by exact Nm'. specialize (H m' f N M'). destruct (configs l o m') eqn:Q; [exact H|]. rewrite H. destruct (Nat.eqb_spec f g) as [->|]; [|reflexivity].
           unfold b. pose proof (configs_first l o c m' g M') as [k' Q']; [congruence|]. specialize (G g Ug). rewrite Q' in G. destruct G as (b' & G1 & _). now rewrite G1.
      * intros f M'. rewrite CC by congruence. specialize (I f M'). destruct (configs l o CALL); [exact I|]. destruct I as (g' & k0 & I1 & I2 & I3 & I4 & I5). exists g', k0.
        split; [exact I1|]. split; [exact I2|]. split; [rewrite FW; destruct (Nat.eqb_spec g' g); [lia|exact I3]|]. split; [rewrite FC, I4; reflexivity|].
        intros o'. now apply (run_ext w w' X (S g') g' o').
Qed.
Lemma live_back w p o : (o < length (objs w))%nat -> is_live (step w p) o = true -> is_live w o = true.
Proof.
  intros L. destruct p as [c a|o' a|o'|o' k m args]; cbn [step]; unfold is_live.
  - destruct (_ && _); [|auto]. cbn [objs]. now rewrite nth_error_app1.
  - destruct (nth_error (objs w) o'); [|auto]. destruct (_ && _); [|auto]. cbn [objs]. now rewrite nth_error_app1.
  - destruct (nth_error (objs w) o') eqn:E; [|auto]. destruct (existsb _ _); [auto|]. cbn [objs]. rewrite set_nth_error, E. destruct (o =? o')%nat; [discriminate|auto].
  - destruct (nth_error (objs w) o') as [y|] eqn:E; [|auto]. destruct (live y) eqn:Ly; [|auto].
    destruct (orchestrated k) eqn:Ok; [|rewrite orchestrate_not by auto; auto]. destruct (method_of (class y) m) as [g|] eqn:M; [|rewrite orchestrate_not by eauto; auto].
    destruct (orchestrate_did w o' k m args y g Ok E M) as (H1 & H2 & _). rewrite H2. destruct (Nat.eqb_spec o o') as [->|]; [|auto]. now rewrite E.
Qed.
Lemma step_length w p : (length (objs w) <= length (objs (step w p)))%nat.
Proof.
  destruct p as [c a|o' a|o'|o' k m args]; cbn [step].
  - destruct (_ && _); cbn [objs]; rewrite ?app_length; cbn; lia.
  - destruct (nth_error (objs w) o'); [destruct (_ && _)|]; cbn [objs]; rewrite ?app_length; cbn; lia.
  - destruct (nth_error (objs w) o'); [destruct (existsb _ _)|]; cbn [objs]; rewrite ?set_nth_length; lia.
  - destruct (is_live w o'); [|lia]. unfold orchestrate. destruct (orchestrated k); cbn [negb fst]; [|lia]. destruct (nth_error (objs w) o'); [|cbn; lia]. destruct (method_of _ m); [|cbn; lia].
    unfold bind_to. destruct (flag_same w n args) as (A & B & C & _). rewrite C. destruct (find _ _ _); destruct (m =? CALL)%string; cbn [fst objs]; rewrite set_nth_length, ?A; cbn [objs]; rewrite ?A; lia.
Qed.
Lemma steps_app w l1 l2 : steps w (l1 ++ l2) = steps (steps w l1) l2.
Proof. apply fold_left_app. Qed.
Lemma steps_length l : forall w, (length (objs w) <= length (objs (steps w l)))%nat.
Proof. induction l as [|p l IH]; intros w; [cbn; lia|]. cbn. pose proof (step_length w p). specialize (IH (step w p)). unfold steps in IH. lia. Qed.

Lemma held_steps w l0 o c a x : fine w -> known w -> held w l0 o c a x -> forall l, is_live (steps w l) o = true -> exists x', held (steps w l) (l0 ++ l) o c a x'.
Proof.
  intros F K Hd. induction l as [|p l IH] using rev_ind; intros L; [exists x; now rewrite app_nil_r|].
  rewrite steps_app in *. cbn [steps fold_left] in L |- *. fold (steps w l) in *.
  assert (Lo : (o < length (objs (steps w l)))%nat). { pose proof (h_obj _ _ _ _ _ _ Hd) as A. apply nth_lt in A. pose proof (steps_length l w). lia. }
  destruct (IH (live_back _ p o Lo L)) as [x' H]. destruct (steps_fine l w F K) as [F' K']. rewrite app_assoc. eapply held_step; eauto.
Qed.
Lemma held_new w c a : fine w -> forallb (fun f => (f <? n_user w)%nat) (functions_of c) = true -> in_use w a = false ->
  held (step w (New c a)) [] (length (objs w)) c a (Obj c [] a true).
Proof.
  intros F U A. cbn [step]. rewrite U, A. cbn [andb negb].
  assert (N : forall f, find (cache w) a f = None).
  { intros f. apply find_none. intros b I. destruct (f_cache w F _ _ _ I) as (u & v & _ & _ & V & L & E). now apply (in_use_false w a _ v A V). }
  constructor; cbn [objs live address class attrs n_user cache]; auto.
  - now rewrite nth_app, Nat.eqb_refl.
  - intros m f M. now apply (user_class (n_user w) c m f).
  - intros f _. apply N.
  - reflexivity.
Qed.
