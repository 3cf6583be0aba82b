(** C45: field bundles give access to their own data. *)
From Verif Require Import Base Dict BundleModel BundleProofs.
Local Open Scope nat_scope.
Local Open Scope string_scope.

(** What an access really returns, for every sequence of creations, mappings and accesses: if the name is mapped, the view
    made by the earliest access of that name through any bundle; only if there is none, the bundle's own data. *)
Theorem C45_first_access_wins : forall len os b n,
  let h := snd (run len os first_world) in
  snd (run len (Access b n :: os) first_world) =
  (Access b n, match own len os b n with
               | NoSuchField => NoSuchField
               | o => match first_view h n with Some (q, i) => View q i | None => o end
               end) :: h.
Proof.
  intros len os b n. pose proof (access_result len os b n) as A. cbn zeta.
  destruct (run len (Access b n :: os) first_world) as [w h]. destruct A as (r & h' & -> & -> & ->). reflexivity.
Qed.
Print Assumptions C45_first_access_wins.

(** Partial: the access gives the bundle's own data, provided no earlier access of the same name (through this or any other
    bundle) gave another view.  In particular when every name is used by one bundle only and is not remapped after its first
    access.  Missing: bundles sharing a field name, remapping; see the refutation. *)
Theorem C45_own_data_partial : forall len os b n,
  (forall b' q i, In (Access b' n, View q i) (snd (run len os first_world)) -> View q i = own len os b n) ->
  exists h, snd (run len (Access b n :: os) first_world) = (Access b n, own len os b n) :: h.
Proof.
  intros len os b n U. rewrite C45_first_access_wins. exists (snd (run len os first_world)). do 2 f_equal.
  set (h := snd (run len os first_world)) in *. clearbody h.
  assert (F : forall v, first_view h n = Some v -> exists b', In (Access b' n, View (fst v) (snd v)) h).
  { clear U. induction h as [|[o r] h IH]; cbn [first_view]; intros v E; [discriminate|].
    destruct o; try (destruct (IH _ E) as [b' I]; exists b'; now right).
    destruct r; try (destruct (IH _ E) as [b' I]; exists b'; now right).
    destruct (first_view h n) eqn:G.
    - destruct (IH _ E) as [b' I]; exists b'; now right.
    - destruct (String.eqb_spec n n0) as [->|]; [|discriminate]. injection E as <-. exists b0. now left. }
  destruct (first_view h n) as [[q i]|]; [|now destruct (own len os b n)].
  destruct (F _ eq_refl) as [b' I]. cbn [fst snd] in I. apply U in I. rewrite <- I. reflexivity.
Qed.
Print Assumptions C45_own_data_partial.

(** operations, most recent first: two bundles, distinct field names, one remapped before its first access *)
Example C45_case :
  let os := [Access 1 "ice"; Access 0 "vapor"; Map 1 2%Z "ice"; NewBundle 11 1; NewBundle 10 0; NewMap [("ice", 0%Z)]; NewMap [("vapor", 3%Z)]] in
  map snd (snd (run (fun _ => 4%Z) (Access 0 "vapor" :: os) first_world)) =
    [View 10 3; View 11 2; View 10 3; Done; Done; Done; Done; Done] /\
  (forall b' q i, In (Access b' "vapor", View q i) (snd (run (fun _ => 4%Z) os first_world)) -> View q i = own (fun _ => 4%Z) os 0 "vapor").
Proof.
  split; [reflexivity|]. intros b' q i H. vm_compute in H.
  repeat destruct H as [H|H]; inversion H; reflexivity.
Qed.

(** Finding: the views are kept in a dictionary of the class, so a second bundle with a field of the same name returns the
    data of the first; and a field mapped to another index keeps showing the old one. *)
Theorem C45_own_data_refuted :
  (exists len os b n q i h, snd (run len (Access b n :: os) first_world) = (Access b n, View q i) :: h /\
     own len os b n = View (q + 1) i) /\
  (exists len os b n q i h, snd (run len (Access b n :: os) first_world) = (Access b n, View q i) :: h /\
     own len os b n = View q (i + 1)).
Proof.
  split.
  - exists (fun _ => 4%Z), [Access 0 "vapor"; NewBundle 11 1; NewBundle 10 0; NewMap [("vapor", 3%Z)]; NewMap [("vapor", 3%Z)]], 1, "vapor", 10, 3%Z.
    eexists. split; reflexivity.
  - exists (fun _ => 4%Z), [Map 0 2%Z "vapor"; Access 0 "vapor"; NewBundle 10 0; NewMap [("vapor", 1%Z)]], 0, "vapor", 10, 1%Z.
    eexists. split; reflexivity.
Qed.
Print Assumptions C45_own_data_refuted.
