(** C52: partial state updates. *)
From Verif Require Import Base Dict StateModel StateProofs.
Local Open Scope string_scope.

(** For every state, memory map and failure point, for update_copy_memory: an attribute the map does not mention is left
    alone, raised or not; an attribute it mentions is left alone or is exactly what the map says; if nothing is raised it is
    what the map says.  (Missing from the full claim: a raise leaving the attributes the map mentions unchanged; refuted.) *)
Theorem C52_copy_partial : forall Q A (fs : fields) (copy : Q -> A -> option Q) (v v' : val Q) (ms : mems A) raised,
  distinct ms -> update_copy_memory fs copy v ms = (v', raised) ->
  (forall p, p <> [] -> covered ms p = false -> leaf (at_path v p) -> at_path v' p = at_path v p) /\
  (forall p, given ms p = Some None ->
     at_path v' p = Some VNone \/ (raised = true /\ at_path v' p = at_path v p)) /\
  (forall p a, given ms p = Some (Some a) ->
     (exists q q', at_path v p = Some (VQ q) /\ copy q a = Some q' /\ at_path v' p = Some (VQ q')) \/
     (raised = true /\ at_path v' p = at_path v p)).
Proof.
  intros Q A fs copy v v' ms r D E. destruct (items_good _ _ ms D _ _ _ E) as (H1 & H2 & H3). split; [auto|].
  split; intros p; [intros G|intros a G]; (destruct r; [destruct (H2 p) as [K|K]; [congruence|auto|]|pose proof (H3 eq_refl p) as K]);
    unfold said in K; rewrite G in K; auto.
Qed.
Print Assumptions C52_copy_partial.

(** The same for update_move_memory. *)
Theorem C52_move_partial : forall Q A (move : Q -> A -> option Q) (v v' : val Q) (ms : mems A) raised,
  distinct ms -> update_move_memory move v ms = (v', raised) ->
  (forall p, p <> [] -> covered ms p = false -> leaf (at_path v p) -> at_path v' p = at_path v p) /\
  (forall p, given ms p = Some None ->
     at_path v' p = Some VNone \/ (raised = true /\ at_path v' p = at_path v p)) /\
  (forall p a, given ms p = Some (Some a) ->
     (exists q q', at_path v p = Some (VQ q) /\ move q a = Some q' /\ at_path v' p = Some (VQ q')) \/
     (raised = true /\ at_path v' p = at_path v p)).
Proof.
  intros Q A move v v' ms r D E. destruct (items_good _ _ ms D _ _ _ E) as (H1 & H2 & H3). split; [auto|].
  split; intros p; [intros G|intros a G]; (destruct r; [destruct (H2 p) as [K|K]; [congruence|auto|]|pose proof (H3 eq_refl p) as K]);
    unfold said in K; rewrite G in K; auto.
Qed.
Print Assumptions C52_move_partial.

(** Partial: when no two quantity fields of the class tree share a name, a copy that does not raise sets None only for
    fields declared optional. *)
Theorem C52_none_optional_partial : forall Q A (fs : fields) (copy : Q -> A -> option Q) (v v' : val Q) (ms : mems A) p n o,
  distinct ms -> NoDup (leaf_names fs) -> update_copy_memory fs copy v ms = (v', false) ->
  given ms (p ++ [n])%list = Some None -> declared fs (p ++ [n])%list = Some (TQuantity o) -> o = true.
Proof.
  intros Q A fs copy v v' ms p n o D N E G T. pose proof (items_none _ _ ms D _ _ E p n G) as K. cbn in K.
  unfold optional_quantities in K. now rewrite (flag_declared p fs [] n o N T) in K.
Qed.
Print Assumptions C52_none_optional_partial.

(** a class with a nested state; quantities are numbers, arrays are numbers, copying a negative array fails *)
Definition C52_fields : fields :=
  FCons "u" (TQuantity false) (FCons "micro" (TState (FCons "ice" (TQuantity true) (FCons "rain" (TQuantity false) FNil))) FNil).
Definition C52_state : val Z :=
  VNode (fun n => if n =? "u" then Some (VQ 1%Z) else
                  if n =? "micro" then Some (VNode (fun k => if k =? "ice" then Some (VQ 2%Z) else if k =? "rain" then Some (VQ 3%Z) else None))
                  else None).
Definition C52_copy (q a : Z) : option Z := if (a <? 0)%Z then None else Some a.
Example C52_case :
  let ms := MCons "u" (MArr 10%Z) (MCons "micro" (MDict (MCons "ice" MNone (MCons "rain" (MArr 5%Z) MNil))) MNil) in
  let '(v', raised) := update_copy_memory C52_fields C52_copy C52_state ms in
  raised = false /\ NoDup (leaf_names C52_fields) /\ distinct ms /\
  at_path v' ["u"] = Some (VQ 10%Z) /\ at_path v' ["micro"; "ice"] = Some VNone /\ at_path v' ["micro"; "rain"] = Some (VQ 5%Z).
Proof.
  cbv zeta. split; [reflexivity|]. split; [repeat constructor; cbn; intuition discriminate|].
  split; [vm_compute; auto 10|]. vm_compute. auto.
Qed.

(** Finding: an update that raises may leave the state changed. *)
Theorem C52_unchanged_refuted : exists (fs : fields) (copy : Z -> Z -> option Z) (v v' : val Z) (ms : mems Z) p,
  distinct ms /\ update_copy_memory fs copy v ms = (v', true) /\ at_path v' p <> at_path v p.
Proof.
  exists C52_fields, C52_copy, C52_state. eexists.
  exists (MCons "u" (MArr 10%Z) (MCons "micro" (MDict (MCons "rain" MNone MNil)) MNil)), ["u"].
  split; [vm_compute; auto 10|]. split; [cbn; reflexivity|]. cbn. intros H. injection H as H. discriminate.
Qed.
Print Assumptions C52_unchanged_refuted.

(** Finding: the table of optional fields has one entry per name for the whole tree.  A required field accepts None when a
    nested state declares an optional field of the same name later; and an optional field refuses None in the opposite case. *)
Theorem C52_collision_refuted :
  (exists (fs : fields) (v v' : val Z) (ms : mems Z) p, update_copy_memory fs C52_copy v ms = (v', false) /\
     given ms p = Some None /\ declared fs p = Some (TQuantity false) /\ at_path v' p = Some VNone) /\
  (exists (fs : fields) (v v' : val Z) (ms : mems Z) p, update_copy_memory fs C52_copy v ms = (v', true) /\
     ms = MCons "t" MNone MNil /\ p = ["t"] /\ declared fs p = Some (TQuantity true)).
Proof.
  split.
  - exists (FCons "t" (TQuantity false) (FCons "in" (TState (FCons "t" (TQuantity true) FNil)) FNil)), (VNode (fun _ => Some (VQ 1%Z))).
    eexists. exists (MCons "t" MNone MNil), ["t"]. split; [cbn; reflexivity|]. vm_compute. auto.
  - exists (FCons "t" (TQuantity true) (FCons "in" (TState (FCons "t" (TQuantity false) FNil)) FNil)), (VNode (fun _ => Some (VQ 1%Z))).
    eexists. exists (MCons "t" MNone MNil), ["t"]. split; [cbn; reflexivity|]. vm_compute. auto.
Qed.
Print Assumptions C52_collision_refuted.

(** Finding: update_move_memory sets None for a required field. *)
Theorem C52_move_none_refuted : exists (fs : fields) (v v' : val Z) (ms : mems Z) p,
  update_move_memory C52_copy v ms = (v', false) /\ NoDup (leaf_names fs) /\
  given ms p = Some None /\ declared fs p = Some (TQuantity false) /\ at_path v p = Some (VQ 1%Z) /\ at_path v' p = Some VNone.
Proof.
  exists C52_fields, C52_state. eexists. exists (MCons "u" MNone MNil), ["u"].
  split; [cbn; reflexivity|]. split; [repeat constructor; cbn; intuition discriminate|]. vm_compute. auto.
Qed.
Print Assumptions C52_move_none_refuted.
