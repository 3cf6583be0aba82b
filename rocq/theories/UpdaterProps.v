(** Property theorems C18 and C22: tags and life cycle of halo updaters.  Model and specification: UpdaterModel.v. *)
From Verif Require Import Base UpdaterModel UpdaterProofs.

(** C22.  After any history of calls on an updater in which the quantities given to start can be packed and
    force_finalize_on_wait is not used: start completes exactly if the completed starts are as many as the completed waits,
    wait exactly if there is one more start; a call that raises leaves the memory alone; and memory is the program's own
    work plus, at the j-th completed wait, the data of exchange j written once into the quantities of the j-th start. *)
Theorem C22_start_wait_alternate : forall (M Q : Type) (write : nat -> Q -> M -> M) packs neighbours timed m0 es,
  (forall e, In e es -> match e with Start q => packs q = true | Force => False | _ => True end) ->
  let '(s, h) := run write packs neighbours timed es (new_updater m0) [] in
  mem s = memory write m0 h /\
  (forall q, packs q = true -> snd (call write packs neighbours timed s (Start q)) = (length (starts h) =? waits h)%nat) /\
  snd (call write packs neighbours timed s Wait) = (length (starts h) =? S (waits h))%nat /\
  (forall e, snd (call write packs neighbours timed s e) = false -> mem (fst (call write packs neighbours timed s e)) = mem s).
Proof. intros M Q. exact plain_ok. Qed.
Print Assumptions C22_start_wait_alternate.

(** The same for all histories whatsoever: which calls complete ([accepted]) now also depends on packing, on an earlier
    forced finalisation ([spent]) and on an earlier start that failed ([broken]). *)
Theorem C22_all_histories : forall (M Q : Type) (write : nat -> Q -> M -> M) packs neighbours timed m0 es,
  let '(s, h) := run write packs neighbours timed es (new_updater m0) [] in
  mem s = memory write m0 h /\ (waits h <= length (starts h) <= S (waits h))%nat /\
  forall e, snd (call write packs neighbours timed s e) = accepted packs neighbours timed h e /\
    (snd (call write packs neighbours timed s e) = false -> mem (fst (call write packs neighbours timed s e)) = mem s).
Proof. intros M Q. exact updater_ok. Qed.
Print Assumptions C22_all_histories.

(** Memory is the log of what was written. *)
Definition log_write (k : nat) (q : Z) (m : list (nat * Z)) := m ++ [(k, q)].
Example C22_case :
  let '(s, h) := run log_write (fun q => 0 <? q) true true
     [Wait; Start 5; Start 6; Compute (fun m => m ++ [(9%nat, 9)]); Wait; Wait; Start 7; Wait; Start 8]%Z (new_updater []) [] in
  (mem s, map snd (rev h)) = ([(9%nat, 9); (0%nat, 5); (1%nat, 7)], [false; true; false; true; true; false; true; true; true])%Z.
Proof. vm_compute. reflexivity. Qed.

(** What the provisos of C22_start_wait_alternate exclude: with force_finalize_on_wait the updater serves one exchange, and
    a start whose packing failed leaves the updater unusable if it is timed. *)
Theorem C22_second_exchange_refuted : exists es : list (event (M := list (nat * Z)) (Q := Z)),
  es = [Force; Start 1; Wait; Start 2]%Z /\
  map snd (rev (snd (run log_write (fun _ => true) true false es (new_updater []) []))) = [true; true; true; false].
Proof. eexists. split; [reflexivity|]. vm_compute. reflexivity. Qed.
Print Assumptions C22_second_exchange_refuted.

Theorem C22_after_failed_start_refuted : exists es : list (event (M := list (nat * Z)) (Q := Z)),
  es = [Start (-1); Start 2]%Z /\
  map snd (rev (snd (run log_write (fun q => 0 <? q) true true es (new_updater []) []))) = [false; false].
Proof. eexists. split; [reflexivity|]. vm_compute. reflexivity. Qed.
Print Assumptions C22_after_failed_start_refuted.

(** C18 for updaters: the scalar and vector updaters created on one communicator all have different tags.
    Missing: interface synchronisation, see below. *)
Theorem C18_updater_tags_distinct_partial : forall es, (forall e, In e es -> e <> Interfaces) -> NoDup (tags 0 es).
Proof. intros es H. exact (proj2 (tags_above es 0 H)). Qed.
Print Assumptions C18_updater_tags_distinct_partial.

Example C18_case : tags 0 [Scalar; Vector; Scalar] = [1; 2; 3].
Proof. reflexivity. Qed.

(** C18 fails for interface synchronisation: it always uses tag 1, the tag of the communicator's first updater and of every
    other interface synchronisation. *)
Theorem C18_interface_tags_refuted : exists es, es = [Scalar; Interfaces; Interfaces] /\ tags 0 es = [1; 1; 1].
Proof. eexists. split; reflexivity. Qed.
Print Assumptions C18_interface_tags_refuted.
