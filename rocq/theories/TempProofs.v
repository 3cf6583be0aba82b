(** Proofs about TempModel.v. *)
From Coq Require Import List Bool String Ascii Lia.
From Verif Require Import TrapModel TrapProofs TempModel.
Import ListNotations.
Local Open Scope list_scope.

Section Proofs.
Context {A : Type}.
Notation temporary := (temporary A).
Lemma temporary_rec' (P : temporary -> Prop) : (forall a, P (Arr a)) -> (forall d, Forall (fun x => P (snd x)) d -> P (Sub d)) -> forall x, P x.
Proof.
  intros HA HS. fix IH 1. intros [a|d]; [apply HA|apply HS]. induction d as [|[n x] d IHd]; constructor; [apply IH|exact IHd].
Qed.
Lemma lookup_in {T} (d : list (string * T)) k x : lookup d k = Some x -> In (k, x) d.
Proof. induction d as [|[n y] d IH]; cbn; [discriminate|]. destruct (string_dec n k) as [->|N]; [intros [= ->]; left; reflexivity|right; auto]. Qed.
Lemma in_lookup {T} (d : list (string * T)) k x : NoDup (map fst d) -> In (k, x) d -> lookup d k = Some x.
Proof.
  induction d as [|[n y] d IH]; cbn; [tauto|]. intros N [E|I].
  - injection E as -> ->. destruct (string_dec k k); [reflexivity|congruence].
  - inversion N; subst. destruct (string_dec n k) as [->|D]; [|auto]. exfalso. apply H1. apply in_map_iff. exists (k, x). auto.
Qed.
Lemma lookup_none {T} (d : list (string * T)) k : lookup d k = None -> forall x, ~ In (k, x) d.
Proof. induction d as [|[n y] d IH]; cbn; [tauto|]. destruct (string_dec n k) as [->|D]; [discriminate|]. intros H x [E|I]; [congruence|exact (IH H x I)]. Qed.
Lemma leaf (x : temporary) : proper x -> exists p a, entry x p a.
Proof.
  induction x as [a|d IH] using temporary_rec'; intros P; [exists [], a; constructor|]. inversion P; subst. destruct d as [|[n x] d]; [congruence|]. inversion IH; subst.
  destruct (H4 (H2 n x (or_introl eq_refl))) as (p & a & E). exists (n :: p), a. econstructor; [left; reflexivity|exact E].
Qed.

Lemma entry_arr (a b : A) p : entry (Arr a) p b -> p = [] /\ b = a.
Proof. intros H. now inversion H. Qed.
Lemma entry_sub (d : list (string * temporary)) p b : entry (Sub d) p b -> exists n q x, p = n :: q /\ In (n, x) d /\ entry x q b.
Proof. intros H. inversion H; subst. eauto 8. Qed.


Section Copy.
Context (dir : nat -> list (string * attribute A)).
Context (dir_names : forall o, NoDup (map fst (dir o))).
Notation copy := (copy_temporaries dir).

Lemma copy_unfold o k : copy o k = flat_map (fun x =>
    match snd x with
    | Quantity a => [(fst x, Arr a)]
    | Object m o => if ours m then match k with O => [] | S k => match copy o k with [] => [] | d => [(fst x, Sub d)] end end else []
    | Plain => []
    end) (filter (fun x => negb (prefix "__" (fst x))) (dir o)).
Proof. destruct k; reflexivity. Qed.
Lemma ours_spec m : ours m = true <-> exists u v, "pyFV3"%string = (u ++ first_part m ++ v)%string.
Proof. apply contains_spec. Qed.
Lemma in_copy o k n x : In (n, x) (copy o k) <-> prefix "__" n = false /\
  ((exists a, In (n, Quantity a) (dir o) /\ x = Arr a) \/ (exists m o' k', In (n, Object m o') (dir o) /\ ours m = true /\ k = S k' /\ copy o' k' <> [] /\ x = Sub (copy o' k'))).
Proof.
  rewrite copy_unfold, in_flat_map. split.
  - intros ([n' y] & I & J). apply filter_In in I. destruct I as [I F]. cbn [fst snd] in *. apply negb_true_iff in F. destruct y as [a|m o'|].
    + destruct J as [[= <- <-]|[]]. split; [exact F|]. left. exists a. auto.
    + destruct (ours m) eqn:M; [|destruct J]. destruct k as [|k]; [destruct J|]. destruct (copy o' k) as [|e d] eqn:E; [destruct J|]. destruct J as [[= <- <-]|[]]. split; [exact F|]. right. exists m, o', k. rewrite E. repeat split; try assumption; discriminate.
    + destruct J.
  - intros (F & [(a & I & ->)|(m & o' & k' & I & M & -> & N & ->)]).
    + exists (n, Quantity a). split; [apply filter_In; split; [exact I|cbn; now rewrite F]|]. left. reflexivity.
    + exists (n, Object m o'). split; [apply filter_In; split; [exact I|cbn; now rewrite F]|]. cbn [snd fst]. rewrite M. destruct (copy o' k'); [congruence|]. left. reflexivity.
Qed.
Lemma copy_entry k : forall o p a, entry (Sub (copy o k)) p a <-> reaches dir o p a /\ List.length p <= S k.
Proof.
  induction k as [|k IH]; intros o p a; split.
  - intros H. apply entry_sub in H. destruct H as (n & q & x & -> & H & E). apply in_copy in H. destruct H as (F & [(b & I & ->)|(m & o' & k' & _ & _ & ? & _)]); [|discriminate]. apply entry_arr in E. destruct E as [-> ->]. split; [now constructor|cbn; lia].
  - intros [R L]. destruct R as [o n a I F|o n m o' p a u v I F M R]; cbn in L.
    + econstructor; [apply in_copy; split; [exact F|left; eauto]|constructor].
    + destruct R; cbn in L; lia.
  - intros H. apply entry_sub in H. destruct H as (n & q & x & -> & H & E). apply in_copy in H. destruct H as (F & [(b & I & ->)|(m & o' & k' & I & M & K & _ & ->)]).
    + apply entry_arr in E. destruct E as [-> ->]. split; [now constructor|cbn; lia].
    + injection K as <-. apply IH in E. destruct E as [R L]. apply ours_spec in M. destruct M as (u & v & M). split; [econstructor; eassumption|cbn; lia].
  - intros [R L]. destruct R as [o n a I F|o n m o' p a u v I F M R]; cbn in L.
    + econstructor; [apply in_copy; split; [exact F|left; eauto]|constructor].
    + assert (E : entry (Sub (copy o' k)) p a) by (apply IH; split; [exact R|lia]). econstructor; [|exact E]. apply in_copy. split; [exact F|]. right. exists m, o', k. repeat split; [exact I|apply ours_spec; eauto|].
      intros Z. rewrite Z in E. apply entry_sub in E. destruct E as (? & ? & ? & _ & [] & _).
Qed.
Lemma nodup_flat {S T} (f : string * S -> list (string * T)) l : (forall x, In x l -> f x = [] \/ exists y, f x = [(fst x, y)]) -> NoDup (map fst l) -> NoDup (map fst (flat_map f l)).
Proof.
  intros F. induction l as [|x l IH]; cbn [map flat_map]; intros N; [constructor|]. inversion N; subst.
  assert (R : NoDup (map fst (flat_map f l))) by (apply IH; [intros y Y; apply F; right; exact Y|assumption]).
  destruct (F x (or_introl eq_refl)) as [E|[y E]]; rewrite E; cbn; [exact R|]. constructor; [|exact R]. intros I. apply H1.
  apply in_map_iff in I. destruct I as ([n z] & Q & I). apply in_flat_map in I. destruct I as (w & W & I). cbn in Q. subst n.
  destruct (F w (or_intror W)) as [Ew|[y' Ew]]; rewrite Ew in I; [destruct I|]. destruct I as [[= Q _]|[]]. rewrite <- Q. now apply in_map.
Qed.
Lemma nodup_filter_fst {S} f (l : list (string * S)) : NoDup (map fst l) -> NoDup (map fst (filter f l)).
Proof.
  induction l as [|x l IH]; intros N; [constructor|]. inversion N; subst. cbn [filter]. destruct (f x); [|auto]. cbn. constructor; [|auto]. intros I. apply H1. apply in_map_iff in I. destruct I as (y & E & I). apply filter_In in I. rewrite <- E. apply in_map. tauto.
Qed.
Lemma copy_nodup o k : NoDup (map fst (copy o k)).
Proof.
  rewrite copy_unfold. apply nodup_flat; [|apply nodup_filter_fst, dir_names]. intros [n x] _. cbn [fst snd]. destruct x as [a|m o'|]; [right; eauto| |left; reflexivity]. destruct (ours m); [|left; reflexivity].
  destruct k; [left; reflexivity|]. destruct (copy o' k); [left; reflexivity|right; eauto].
Qed.
Lemma copy_proper k : forall o n x, In (n, x) (copy o k) -> proper x.
Proof.
  induction k as [|k IH]; intros o n x I; apply in_copy in I; destruct I as (_ & [(a & _ & ->)|(m & o' & k' & _ & _ & K & N & ->)]); [constructor|discriminate|constructor|].
  injection K as <-. constructor; [exact N|apply copy_nodup|]. intros n' y. apply IH.
Qed.
End Copy.

Section Compare.
Context (allclose : A -> A -> option bool).
Notation compare := (compare allclose).
Fixpoint all (e d : list (string * temporary)) : option (list (list string)) :=
  match d with
  | [] => Some []
  | (n, x') :: d' => match compare x' (lookup e n), all e d' with Some l, Some r => Some (map (cons n) l ++ r) | _, _ => None end
  end.
Lemma compare_sub d e : compare (Sub d) (Some (Sub e)) = all e d.
Proof.
  induction d as [|[n x] d IH]; [reflexivity|]. cbn [all]. rewrite <- IH. reflexivity.
Qed.

Definition agrees (x y : temporary) (l : list (list string)) : Prop :=
  (forall p a, entry x p a -> exists b c, entry y p b /\ allclose a b = Some c) /\
  (forall p, In p l <-> exists a b, entry x p a /\ entry y p b /\ allclose a b = Some false).
Definition fails (x y : temporary) : Prop := exists p a, entry x p a /\ ((forall b, ~ entry y p b) \/ exists b, entry y p b /\ allclose a b = None).
Definition good (x : temporary) : Prop := forall y, proper x -> proper y -> match compare x (Some y) with Some l => agrees x y l | None => fails x y end.
Lemma all_good e d : Forall (fun x => good (snd x)) d -> NoDup (map fst d) -> (forall n x, In (n, x) d -> proper x) -> NoDup (map fst e) -> (forall n x, In (n, x) e -> proper x) ->
  match all e d with Some l => agrees (Sub d) (Sub e) l | None => fails (Sub d) (Sub e) end.
Proof.
  intros G N P Ne Pe. induction G as [|[n x] d Gx G IH].
  - cbn. split; [intros p a E; apply entry_sub in E; destruct E as (? & ? & ? & _ & [] & _)|]. intros p. split; [intros []|]. intros (a & b & E & _). apply entry_sub in E. destruct E as (? & ? & ? & _ & [] & _).
  - cbn [map fst] in N. inversion N; subst. specialize (IH H2 (fun n' x' I => P n' x' (or_intror I))). cbn [all]. cbn [snd] in Gx.
    assert (Px : proper x) by (apply (P n); left; reflexivity).
    assert (UP : fails (Sub d) (Sub e) -> fails (Sub ((n, x) :: d)) (Sub e)).
    { intros (p & a & E & F). exists p, a. split; [|exact F]. apply entry_sub in E. destruct E as (n' & q & x' & -> & I & E). econstructor; [right; exact I|exact E]. }
    destruct (lookup e n) as [y|] eqn:L.
    + assert (Iy := lookup_in _ _ _ L). specialize (Gx y Px (Pe _ _ Iy)). destruct (compare x (Some y)) as [l|].
      * destruct (all e d) as [r|]; [|apply UP, IH]. destruct Gx as [X1 X2], IH as [D1 D2]. split.
        -- intros p a E. apply entry_sub in E. destruct E as (n' & q & x' & -> & [I|I] & E).
           ++ injection I as <- <-. destruct (X1 q a E) as (b & c & B & C). exists b, c. split; [econstructor; eassumption|exact C].
           ++ apply D1. econstructor; eassumption.
        -- intros p. rewrite in_app_iff, in_map_iff. split.
           ++ intros [(q & <- & Q)|Q].
              ** apply X2 in Q. destruct Q as (a & b & E & B & C). exists a, b. split; [econstructor; [left; reflexivity|exact E]|]. split; [econstructor; eassumption|exact C].
              ** apply D2 in Q. destruct Q as (a & b & E & B & C). exists a, b. split; [|auto]. apply entry_sub in E. destruct E as (n' & q & x' & -> & I & E). econstructor; [right; exact I|exact E].
           ++ intros (a & b & E & B & C). apply entry_sub in E. destruct E as (n' & q & x' & -> & [I|I] & E).
              ** injection I as <- <-. left. exists q. split; [reflexivity|]. apply X2. exists a, b. split; [exact E|split; [|exact C]]. apply entry_sub in B. destruct B as (n'' & q' & y' & [= <- <-] & J & B). rewrite (in_lookup _ _ _ Ne J) in L. injection L as ->. exact B.
              ** right. apply D2. exists a, b. split; [econstructor; eassumption|auto].
      * destruct Gx as (p & a & E & F). exists (n :: p), a. split; [econstructor; [left; reflexivity|exact E]|]. destruct F as [F|(b & B & C)].
        -- left. intros b B. apply entry_sub in B. destruct B as (n'' & q' & y' & [= <- <-] & J & B). rewrite (in_lookup _ _ _ Ne J) in L. injection L as ->. exact (F b B).
        -- right. exists b. split; [econstructor; eassumption|exact C].
    + assert (F : fails (Sub ((n, x) :: d)) (Sub e)).
      { destruct (leaf x Px) as (p & a & E). exists (n :: p), a. split; [econstructor; [left; reflexivity|exact E]|]. left. intros b B. apply entry_sub in B. destruct B as (n' & q & y & [= <- <-] & I & _). exact (lookup_none _ _ L y I). }
      destruct x as [a|dx]; [exact F|]. destruct dx; exact F.
Qed.
Lemma compare_good x : good x.
Proof.
  induction x as [a|d IH] using temporary_rec'; intros y Px Py.
  - destruct y as [b|e]; cbn.
    + destruct (allclose a b) as [[|]|] eqn:C.
      * split; [intros p a' E; apply entry_arr in E; destruct E as [-> ->]; exists b, true; split; [constructor|exact C]|]. intros p. split; [intros []|]. intros (a' & b' & E & E' & C'). apply entry_arr in E, E'. destruct E as [_ ->], E' as [_ ->]. congruence.
      * split; [intros p a' E; apply entry_arr in E; destruct E as [-> ->]; exists b, false; split; [constructor|exact C]|]. intros p. split; [intros [<-|[]]; exists a, b; repeat split; (constructor || exact C)|]. intros (a' & b' & E & E' & C'). apply entry_arr in E. destruct E as [-> _]. left. reflexivity.
      * exists [], a. split; [constructor|]. right. exists b. split; [constructor|exact C].
    + exists [], a. split; [constructor|]. left. intros b B. apply entry_sub in B. destruct B as (? & ? & ? & ? & _). discriminate.
  - destruct y as [b|e].
    + destruct d as [|[n x] d]; [inversion Px; congruence|]. cbn. destruct (leaf _ Px) as (p & a & E). exists p, a. split; [exact E|]. left. intros b' B. apply entry_arr in B. destruct B as [-> _]. apply entry_sub in E. destruct E as (? & ? & ? & ? & _). discriminate.
    + inversion Px; subst. inversion Py; subst. rewrite compare_sub. apply all_good; assumption.
Qed.
End Compare.
End Proofs.
