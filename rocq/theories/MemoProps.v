(** C116: the analyses of orchestrated programs. *)
From Coq Require Import String QArith Lia Lqa.
From Verif Require Import Base Dict MemoModel MemoProofs.
Local Open Scope Z_scope.
Local Open Scope list_scope.

(** A program with a nested one inside of a map, used below. *)
Definition inner : sdfg :=
  Sdfg [("tmp", Array [4; 4] 16 8 "GPU_Global" true true); ("arg", Array [4; 4] 16 8 "GPU_Global" false false); ("dead", Array [4] 4 4 "Register" true false)]%string
       ["tmp"; "arg"]%string [] [Kmap "deep" false [] []] [].
Definition program : sdfg :=
  Sdfg [("a", Array [4; 4] 20 8 "GPU_Global" false false); ("b", Array [4; 4] 16 8 "GPU_Global" true true); ("flag", Array [1] 1 4 "Default" true false)]%string
       ["a"; "b"]%string ["flag"%string]
       [Kmap "copy" false [Some ("a"%string, [Known 4; Known 4])] [Some ("b"%string, [Known 4; Known 4])];
        Kmap "copy" false [Some ("a"%string, [Known 4; Known 2])] [Some ("b"%string, [Known 4; Known 2])];
        Kmap "in" true [] []]
       [(true, inner); (false, Sdfg [] [] [] [Kmap "fill" false [] []] [])].
Definition storages : list string := ["Default"; "Register"; "GPU_Global"]%string.

(** Whatever the program: for each storage the analysis lists every array of the program and every transient array of the programs inside of it, once, with its
    size and whether an access node of its own program is for it; the sums are those of the listed arrays. *)
Theorem C116_memory_partial ts s :
  (forall c n a, part_of c s -> In (n, a) (arrays c) -> In (a_storage a) ts) ->
  exists al, memory_static_analysis ts s = Some al /\ keys al = ts
    /\ forall t, In t ts -> exists r, get al t = Some r /\ r_details r = lines t s
         /\ r_ref r = bytes d_ref (lines t s) /\ r_unref r = bytes (fun d => negb (d_ref d)) (lines t s)
         /\ r_pool r = bytes d_pool (lines t s) /\ r_top r = bytes d_top (lines t s)
         /\ r_ref r + r_unref r = bytes (fun _ => true) (lines t s).
Proof.
  intros H. unfold memory_static_analysis. set (start := map _ ts).
  assert (K : keys start = ts). { unfold start, keys. rewrite map_map. cbn [fst]. apply map_id. }
  destruct (fold_visit (arrays_recursive s) start) as (al & E & KA & G).
  { intros p c n a I. apply recursive_part in I. destruct I as [P I]. rewrite K. apply (H c n a P I). }
  exists al. split; [exact E|]. split; [congruence|]. intros t T. specialize (G t _ (get_start t ts T)). rewrite lines_ok in G. eexists. split; [exact G|].
  unfold absorb. cbn [r_details r_ref r_unref r_pool r_top app]. rewrite !Z.add_0_l. do 5 (split; [reflexivity|]).
  apply bytes_split.
Qed.
Print Assumptions C116_memory_partial.
Example C116_memory_case :
  (forall c n a, part_of c program -> In (n, a) (arrays c) -> In (a_storage a) storages)
  /\ exists r, (do al <- memory_static_analysis storages program; get al "GPU_Global"%string) = Some r /\ r_ref r = 416 /\ r_unref r = 0 /\ r_pool r = 256 /\ r_top r = 288.
Proof.
  split; [|eexists; split; [vm_compute; reflexivity|vm_compute; auto]].
  intros c n a P I. assert (E : c = program \/ c = inner \/ arrays c = []).
  { inversion P as [|s b d c' J Q]; subst; [auto|]. cbn in J. destruct J as [[= <- <-]|[[= <- <-]|[]]]; inversion Q as [|s b d c' J R]; subst; auto; destruct J. }
  destruct E as [->|[->|E]]; [| |rewrite E in I; destruct I]; cbn in I; repeat (destruct I as [[= <- <-]|I]; [cbn; auto|]); destruct I.
Qed.

(** The text shows a storage exactly if it has referenced memory or memory of the program itself. *)
Theorem C116_shown_partial al t r : NoDup (keys al) -> get al t = Some r -> (In (t, r) (report_memory_static_analysis al) <-> r_ref r <> 0 \/ 0 < r_top r).
Proof.
  intros N G. unfold report_memory_static_analysis. rewrite filter_In. cbn [snd]. rewrite Bool.orb_true_iff, Bool.negb_true_iff, Z.eqb_neq, Z.ltb_lt.
  split; [tauto|]. intros H. split; [apply get_in, G|exact H].
Qed.
Print Assumptions C116_shown_partial.
Example C116_shown_case : exists al, memory_static_analysis storages program = Some al /\ NoDup (keys al) /\ keys (report_memory_static_analysis al) = ["Default"; "GPU_Global"]%string.
Proof.
  eexists. split; [vm_compute; reflexivity|]. split; [|vm_compute; reflexivity].
  cbn. repeat constructor; cbn; intuition congruence.
Qed.

(** Memory that is only unreferenced and in nested programs is not shown. *)
Theorem C116_hidden_refuted : exists al r, memory_static_analysis storages program = Some al /\ get al "Register"%string = Some r /\ 0 < r_unref r
  /\ ~ In "Register"%string (keys (report_memory_static_analysis al)).
Proof.
  eexists. eexists. split; [vm_compute; reflexivity|]. split; [vm_compute; reflexivity|]. split; [vm_compute; reflexivity|]. vm_compute. intuition congruence.
Qed.
Print Assumptions C116_hidden_refuted.

(** An array that a condition of the program reads is reported as not referenced. *)
Theorem C116_condition_refuted : exists al r, memory_static_analysis storages program = Some al /\ In "flag"%string (conditions program) /\ get al "Default"%string = Some r
  /\ In (AReport "flag" 4 false true false true) (r_details r).
Proof.
  eexists. eexists. split; [vm_compute; reflexivity|]. split; [left; reflexivity|]. split; [vm_compute; reflexivity|]. left. reflexivity.
Qed.
Print Assumptions C116_condition_refuted.

(** With a given bandwidth (in units of 2^30 bytes per second): there are timings exactly if the sizes of all edges of the maps that are in no other map are known numbers.  Then each of these maps has an entry under
    its label that is not less than the time (in microseconds) for its bytes, and each entry is the time of one of the maps with that label. *)
Definition microseconds (n : Z) (gb : Q) : Q := (inject_Z n * 1000000 / (gb * 1073741824))%Q.
Lemma micro_gb n b : ~ (b == 0)%Q -> (micro (b * 1024 * 1024 * 1024) n == microseconds n b)%Q.
Proof. intros N. unfold micro, microseconds. field. exact N. Qed.
Theorem C116_timing_partial dt item b s : ~ (b == 0)%Q ->
  ((exists res, kernel_theoretical_timing dt item (Some b) s = Some res) <-> (forall c k, outer s c k -> exists x y, moves c (m_in k) x /\ moves c (m_out k) y))
  /\ forall res, kernel_theoretical_timing dt item (Some b) s = Some res ->
       (forall c k x y, outer s c k -> moves c (m_in k) x -> moves c (m_out k) y -> exists v, get res (m_label k) = Some v /\ (microseconds (x + y) b <= v)%Q)
       /\ (forall l v, get res l = Some v -> exists c k x y, outer s c k /\ m_label k = l /\ moves c (m_in k) x /\ moves c (m_out k) y /\ (v == microseconds (x + y) b)%Q).
Proof.
  intros N. unfold kernel_theoretical_timing. cbn [bandwidth_in_bytes_s bind]. set (bw := (b * 1024 * 1024 * 1024)%Q).
  assert (M : ~ (bw == 0)%Q). { unfold bw. intros E. apply N. apply (Qmult_inj_r b 0 (1024 * 1024 * 1024)); [discriminate|]. rewrite Qmult_0_l, <- E. ring. }
  assert (Z0 : good bw [] []). { split; [intros x n []|intros l v; discriminate]. }
  split; [split|].
  - intros [res E] c k O. destruct (fold_good bw _ M [] [] res Z0 E) as [W _]. apply topmaps_outer in O. destruct (W _ O) as [n V]. apply weight_spec in V.
    destruct V as (x & y & X & Y & _). eauto.
  - intros H. apply (fold_total bw); [exact M|]. intros [c k] I. apply topmaps_outer in I. destruct (H _ _ I) as (x & y & X & Y).
    exists (x + y). apply weight_spec. eauto.
  - intros res E. destruct (fold_good bw _ M [] [] res Z0 E) as [_ [G1 G2]]. cbn [app] in G1, G2. split.
    + intros c k x y O X Y. apply topmaps_outer in O. destruct (G1 (c, k) (x + y) O) as (v & V & L); [apply weight_spec; eauto|].
      exists v. split; [exact V|]. rewrite <- micro_gb by exact N. exact L.
    + intros l v V. destruct (G2 _ _ V) as ([c k] & n & I & L & W & ->). apply topmaps_outer in I. apply weight_spec in W. destruct W as (x & y & X & Y & ->).
      exists c, k, x, y. split; [exact I|]. split; [exact L|]. split; [exact X|]. split; [exact Y|]. apply micro_gb, N.
Qed.
Print Assumptions C116_timing_partial.
Example C116_timing_case : exists res v, kernel_theoretical_timing 1 8 (Some 1%Q) program = Some res /\ keys res = ["copy"; "fill"]%string /\ get res "copy"%string = Some v
  /\ (v == microseconds 256 1)%Q.
Proof. eexists. eexists. split; [vm_compute; reflexivity|]. split; [reflexivity|]. split; [reflexivity|]. vm_compute. reflexivity. Qed.

(** Without a given bandwidth the timing of a map that moves as much as the benchmark (which reads and writes one array of the shape of w) is a quarter of the measured time. *)
Theorem C116_benchmark_partial dt item s w res c k :
  (0 < dt)%Q -> get (arrays s) "__g_self__w"%string = Some w -> fold_left Z.mul (a_shape w) 1 * item <> 0 ->
  kernel_theoretical_timing dt item None s = Some res ->
  outer s c k -> moves c (m_in k) (fold_left Z.mul (a_shape w) 1 * item) -> moves c (m_out k) (fold_left Z.mul (a_shape w) 1 * item) ->
  (forall c' k', outer s c' k' -> m_label k' = m_label k -> (c', k') = (c, k)) ->
  exists v, get res (m_label k) = Some v /\ (v == dt * 1000000 / 4)%Q.
Proof.
  intros D W P E O X Y U. unfold kernel_theoretical_timing in E. cbn [bandwidth_in_bytes_s] in E. rewrite W in E. cbn [bind] in E.
  set (B := fold_left Z.mul (a_shape w) 1 * item) in *. set (bw := (inject_Z (B * 8) / dt)%Q) in *.
  assert (ND : ~ (dt == 0)%Q) by (intros H; rewrite H in D; now apply Qlt_irrefl in D).
  assert (NB : ~ (inject_Z B == 0)%Q). { intros H. apply P. unfold Qeq in H. cbn in H. lia. }
  assert (M : ~ (bw == 0)%Q).
  { unfold bw. rewrite inject_Z_mult. intros H. apply NB. assert (R : (inject_Z B == inject_Z B * inject_Z 8 / dt * (dt / 8))%Q) by (field; exact ND). rewrite R, H. ring. }
  assert (Z0 : good bw [] []). { split; [intros x n []|intros l v; discriminate]. }
  destruct (fold_good bw _ M [] [] res Z0 E) as [_ [G1 G2]]. cbn [app] in G1, G2. apply topmaps_outer in O.
  destruct (G1 (c, k) (B + B) O) as (v & V & _); [apply weight_spec; eauto|]. exists v. split; [exact V|].
  destruct (G2 _ _ V) as ([c' k'] & n & I & L & Wt & ->). apply topmaps_outer in I. injection (U _ _ I L) as -> ->.
  apply weight_spec in Wt. destruct Wt as (x & y & X' & Y' & ->). rewrite (moves_fun _ _ _ _ X' X), (moves_fun _ _ _ _ Y' Y).
  unfold micro, bw. rewrite inject_Z_plus, inject_Z_mult. field. split; [exact ND|]. exact NB.
Qed.
Print Assumptions C116_benchmark_partial.
Definition benchmark : sdfg :=
  Sdfg [("__g_self__w", Array [8; 8; 4] 256 8 "GPU_Global" false false); ("B", Array [8; 8; 4] 256 8 "GPU_Global" false false)]%string ["__g_self__w"; "B"]%string []
       [Kmap "copy" false [Some ("B"%string, [Known 8; Known 8; Known 4])] [Some ("__g_self__w"%string, [Known 8; Known 8; Known 4])]] [].

(** The benchmark itself, measured to take 2 microseconds, is said to take half a microsecond. *)
Theorem C116_benchmark_refuted : exists res v, kernel_theoretical_timing (2 # 1000000) 8 None benchmark = Some res /\ get res "copy"%string = Some v /\ (v == 1 # 2)%Q /\ ~ (v == 2)%Q.
Proof. eexists. eexists. split; [vm_compute; reflexivity|]. split; [reflexivity|]. split; [reflexivity|]. intros H. vm_compute in H. discriminate. Qed.
Print Assumptions C116_benchmark_refuted.

(** Without a given bandwidth there are no timings for a program without an array "__g_self__w". *)
Theorem C116_needs_w dt item s : ~ In "__g_self__w"%string (keys (arrays s)) -> kernel_theoretical_timing dt item None s = None.
Proof. intros N. unfold kernel_theoretical_timing. cbn [bandwidth_in_bytes_s]. apply get_none in N. now rewrite N. Qed.
Print Assumptions C116_needs_w.
Example C116_needs_w_case : ~ In "__g_self__w"%string (keys (arrays program)).
Proof. vm_compute. intuition congruence. Qed.

(** A symbolic size, or an edge that only orders two nodes, makes the analysis fail. *)
Theorem C116_symbolic_refuted : exists s k, outer s s k /\ m_in k = [Some ("a"%string, [Symbolic])] /\ get (arrays s) "a"%string <> None /\ forall dt item b, kernel_theoretical_timing dt item (Some b) s = None.
Proof.
  exists (Sdfg [("a", Array [4; 4] 16 8 "GPU_Global" false false)]%string ["a"%string] [] [Kmap "read" false [Some ("a"%string, [Symbolic])] []] []).
  eexists. split; [apply outer_own; [left; reflexivity|reflexivity]|]. split; [reflexivity|]. split; [discriminate|]. reflexivity.
Qed.
Print Assumptions C116_symbolic_refuted.
Theorem C116_empty_memlet_refuted : exists s k, outer s s k /\ m_in k = [None] /\ forall dt item b, kernel_theoretical_timing dt item (Some b) s = None.
Proof.
  exists (Sdfg [] [] [] [Kmap "fill" false [None] []] []). eexists. split; [apply outer_own; [left; reflexivity|reflexivity]|]. split; [reflexivity|]. reflexivity.
Qed.
Print Assumptions C116_empty_memlet_refuted.

(** The printed text calls a given bandwidth computed and a computed one given. *)
Theorem C116_label_refuted : exists given, label (Some given) = "Hardware bandwidth computed"%string /\ label None = "Given hardware bandwidth"%string.
Proof. exists 500%Q. split; reflexivity. Qed.
Print Assumptions C116_label_refuted.
