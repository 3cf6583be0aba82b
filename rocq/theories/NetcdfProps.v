(** C37: the NetCDF monitor.  Model and specification in NetcdfModel.v. *)
From Verif Require Import Base Dict NetcdfModel NetcdfProofs.
Open Scope nat_scope.

(** C37.  What the files hold after any sequence of stores and cleanups that ends with a cleanup, for every chunk size of at least one: file k holds, in
    order and once each, the accepted states number kC .. kC+C-1 except those overwritten, i.e. those followed by a cleanup and then by another
    state of the same chunk; there is no file when there is no such state.  A store raises exactly when the state's names are not those of the first
    state, and a store that raises changes nothing. *)
Theorem C37_contents : forall V C os, 1 <= C ->
  Forall (fun o => match o with Store s => NoDup (keys s) | Cleanup => True end) os ->
  let '(m, h) := exec_all (V := V) C (os ++ [Cleanup]) new_monitor [] in
  raises_when h /\
  forall k, holds (files m k) (pick (stored h) (survivors C (length (stored h)) (cleanups h) k)).
Proof. intros V C os HC N. exact (files_ok C HC os N). Qed.
Print Assumptions C37_contents.

(** C37 (partial). If no cleanup comes in the middle of a chunk that is continued afterwards - in particular with chunks of one state, or if cleanup is only
    called at the end - file k holds exactly the accepted states number kC .. kC+C-1.  Missing: cleanup in the middle of a chunk, see
    [C37_cleanup_refuted]. *)
Theorem C37_every_state_once_partial : forall V C os, 1 <= C ->
  Forall (fun o => match o with Store s => NoDup (keys s) | Cleanup => True end) os ->
  let '(m, h) := exec_all (V := V) C (os ++ [Cleanup]) new_monitor [] in
  (forall c, In c (cleanups h) -> c < length (stored h) -> c mod C = 0) ->
  forall k, holds (files m k) (firstn C (skipn (k * C) (stored h))).
Proof.
  intros V C os HC N. pose proof (files_ok C HC os N) as F. destruct (exec_all C (os ++ [Cleanup]) new_monitor []) as [m h].
  intros H k. rewrite <- pick_range, <- (survivors_all C HC _ (cleanups h) k H). apply F.
Qed.
Print Assumptions C37_every_state_once_partial.

Definition sample (t x : Z) : dict Z := [("x", x); ("time", t)]%string.
Example C37_case :
  let '(m, h) := exec_all 2 ([Store (sample 1 10); Store (sample 2 20); Cleanup; Store [("y", 0%Z)]%string; Store (sample 3 30); Store (sample 4 40); Store (sample 5 50)] ++ [Cleanup]) new_monitor [] in
  length (stored h) = 5 /\ cleanups h = [5; 2] /\ map snd h = [false; false; false; false; true; false; false; false] /\
  map (files m) [0; 1; 2; 3] =
    [Some (mkFile [Some 1; Some 2]%Z [("x"%string, [10; 20]%Z)]); Some (mkFile [Some 3; Some 4]%Z [("x"%string, [30; 40]%Z)]);
     Some (mkFile [Some 5]%Z [("x"%string, [50]%Z)]); None].
Proof. vm_compute. auto. Qed.

(** Full statement: after any sequence ending with a cleanup the files contain every stored state exactly once.  False: a cleanup in the
    middle of a chunk writes the file of that chunk, and the flush at the end of the chunk replaces that file with only what came after. *)
Theorem C37_cleanup_refuted : exists C (os : list (@op Z)) s, 1 <= C /\
  let '(m, h) := exec_all C (os ++ [Cleanup]) new_monitor [] in
  In s (stored h) /\ (forall r, In r (map snd h) -> r = false) /\
  forall k f, files m k = Some f -> ~ In (get s "time") (file_times f).
Proof.
  exists 2, [Store (sample 1 10); Cleanup; Store (sample 2 20)], (sample 1 10). split; [lia|].
  vm_compute. split; [auto|]. split; [intuition|]. intros k f. destruct k as [|k]; intros [= <-]. intros [H|[]]; discriminate.
Qed.
Print Assumptions C37_cleanup_refuted.
