(** C129: what open_restart gives to every rank.

    Every rank gets, for every property asked for, its part of the variable with the property's restart name in the last of the tile's files that holds one (core, surface winds, tracers,
    surface, physics), with the property's units and with its dimensions in the place of the last ones; the time is that of the coupler file; nothing else is loaded than was asked for and
    has units; tracer properties are added to the standard ones and replace none; a rank reads the files of its own tile only; a directory without restart files is reported by a ValueError,
    and on every rank. *)
From Coq Require Import ZArith Arith Bool Lia Ascii.
From Verif Require Import Base Dict SaveModel SaveProps RestartModel RestartProps StenProps OpenModel.
Import ListNotations.
Local Open Scope string_scope.
Local Open Scope list_scope.

Lemma get_fmap {A B} (g : string -> A -> B) (d : dict A) k : get (map (fun kv => (fst kv, g (fst kv) (snd kv))) d) k = option_map (g k) (get d k).
Proof. induction d as [|[j v] d IH]; [reflexivity|]. cbn. destruct (String.eqb_spec k j) as [->|N]; [reflexivity|exact IH]. Qed.
Lemma keys_fmap {A B} (g : string -> A -> B) (d : dict A) : keys (map (fun kv => (fst kv, g (fst kv) (snd kv))) d) = keys d.
Proof. unfold keys. rewrite map_map. reflexivity. Qed.
Lemma get_names props n (p : property) : get props n = Some p -> get (names_of props) n = Some (restart_name p).
Proof. intro G. unfold names_of. now rewrite (get_fmap (fun _ => restart_name)), G. Qed.
Lemma nodup_filter_keys {V} (f : string * V -> bool) (d : dict V) : NoDup (keys d) -> NoDup (keys (filter f d)).
Proof.
  unfold keys. induction d as [|[k v] d IH]; intros N; [constructor|]. cbn in *. apply NoDup_cons_iff in N. destruct N as [N1 N2]. destruct (f (k, v)); [|auto].
  cbn. constructor; [|auto]. intro I. apply N1. apply in_map_iff in I. destruct I as (x & <- & I). apply filter_In in I. apply in_map_iff. exists x. tauto.
Qed.
Lemma taken_in n l : fst (taken n l) = existsb (String.eqb n) l.
Proof. induction l as [|m l IH]; [reflexivity|]. cbn. rewrite (String.eqb_sym n m). destruct (String.eqb m n); [reflexivity|exact IH]. Qed.
Lemma pick_sub {D} props (items : dict (variable D)) : forall l x, In x (fst (pick props l items)) ->
  In x items /\ In (fst x) l /\ (fst x = "time" \/ has_units (snd x) = true \/ get props (fst x) <> None).
Proof.
  induction items as [|[n v] items IH]; intros l x I; [destruct I|]. cbn [pick] in I.
  destruct (String.eqb n "time" || has_units v || match get props n with Some _ => true | None => false end) eqn:C.
  - destruct (taken n l) as [b l'] eqn:T. destruct (pick props l' items) as [s l''] eqn:P. cbn [fst] in I.
    assert (S : incl l' l). { clear -T. revert b l' T. induction l as [|m l IH]; cbn; intros b l' T; [injection T as <- <-; apply incl_refl|]. destruct (String.eqb m n); [injection T as <- <-|apply IH in T]; now apply incl_tl. }
    assert (R : In x s -> In x ((n, v) :: items) /\ In (fst x) l /\ (fst x = "time" \/ has_units (snd x) = true \/ get props (fst x) <> None)).
    { intro J. specialize (IH l' x). rewrite P in IH. destruct (IH J) as (A & B & C'). split; [now right|]. split; [now apply S|exact C']. }
    destruct b; [|auto]. destruct I as [<-|I]; [|auto]. split; [now left|]. cbn [fst snd]. split.
    + pose proof (taken_in n l) as E. rewrite T in E. cbn in E. symmetry in E. apply existsb_exists in E. destruct E as (m & M & E). apply String.eqb_eq in E. now subst.
    + apply orb_true_iff in C. destruct C as [C|C]; [apply orb_true_iff in C; destruct C as [C|C]|].
      * left. now apply String.eqb_eq.
      * now right; left.
      * right; right. destruct (get props n); [discriminate|discriminate C].
  - destruct (IH l x I) as (A & B). split; [now right|exact B].
Qed.
Lemma pick_keys {D} props (items : dict (variable D)) : forall l, NoDup (keys items) -> NoDup (keys (fst (pick props l items))).
Proof.
  induction items as [|[n v] items IH]; intros l N; [constructor|]. cbn [keys map fst] in N. apply NoDup_cons_iff in N. destruct N as [N1 N2]. cbn [pick].
  destruct (String.eqb n "time" || has_units v || match get props n with Some _ => true | None => false end); [|now apply IH].
  destruct (taken n l) as [b l'] eqn:T. destruct (pick props l' items) as [s l''] eqn:P. specialize (IH l' N2). rewrite P in IH. cbn [fst] in *. destruct b; [|exact IH].
  cbn. constructor; [|exact IH]. intro I. apply N1. apply in_map_iff in I. destruct I as (x & <- & I). pose proof (pick_sub props items l' x) as Q. rewrite P in Q. apply Q in I. destruct I as [I _].
  unfold keys. now apply in_map.
Qed.

Section Proofs.
Context {D T : Type} (disk : string -> option (dict (variable D))) (coupler : string -> option T) (part : Z -> D -> D).
Definition asks (o : only) (n : string) : Prop := match o with Every => True | Collection l | Iterator l => In n l end.

Lemma load_file_nodup props o (file : dict (variable D)) : NoDup (keys (fst (load_file props o file))).
Proof.
  unfold load_file. destruct o; cbn [fst].
  - rewrite (keys_fmap (apply_metadata props)). unfold load. apply nodup_filter_keys, map_keys_nodup.
  - rewrite (keys_fmap (apply_metadata props)). unfold load. apply nodup_filter_keys, map_keys_nodup.
  - destruct (pick props l _) as [s l'] eqn:P. cbn [fst]. rewrite (keys_fmap (apply_metadata props)). pose proof (pick_keys props (map_keys file (standard_names (names_of props))) l (map_keys_nodup _ _)) as Q. now rewrite P in Q.
Qed.
Lemma load_file_only props o (file : dict (variable D)) : match o with Iterator _ => True | _ => snd (load_file props o file) = o end.
Proof. destruct o; exact I || reflexivity. Qed.
(** what one file gives *)
Lemma load_file_get props o (file : dict (variable D)) n p : NoDup (keys props) -> NoDup (keys file) -> get props n = Some p -> claimants (names_of props) (restart_name p) = [n] -> get file n = None ->
  match o with Every => True | Collection l => In n l | Iterator _ => False end ->
  get (fst (load_file props o file)) n = option_map (apply_metadata props n) (get file (restart_name p)).
Proof.
  intros Np Nf G C F A. assert (N' : NoDup (keys (names_of props))) by (unfold names_of; now rewrite (keys_fmap (fun _ => restart_name))).
  assert (I : In (n, restart_name p) (names_of props)) by (apply get_in; now apply get_names).
  unfold load_file. destruct o; cbn [fst]; [| |destruct A]; rewrite (get_fmap (apply_metadata props)); f_equal; now apply C54_own_name_partial.
Qed.
(** a variable that no property is about *)
Lemma map_keys_other {V} (ps : dict string) (old : dict V) n : (forall m r, In (m, r) ps -> m <> n /\ r <> n) -> NoDup (keys old) -> get (map_keys old (standard_names ps)) n = get old n.
Proof.
  clear disk coupler part. intros P N. assert (S : get (standard_names ps) n = None). { destruct (get (standard_names ps) n) as [m|] eqn:S; [|reflexivity]. apply standard_names_in in S. now apply P in S. }
  unfold map_keys. destruct (get old n) as [v|] eqn:G; [apply fold_rest_kept; [exact S|exact N|now apply get_in]|].
  assert (A : forall (l : dict V) d, ~ In n (keys l) -> get d n = None -> get (fold_left (fun d kv => match get (standard_names ps) (fst kv) with Some _ => d | None => put d (fst kv) (snd kv) end) l d) n = None).
  { induction l as [|[k v] l IH]; intros d I E; [exact E|]. cbn in I |- *. apply IH; [tauto|]. destruct (get (standard_names ps) k); [exact E|]. rewrite get_put. destruct (String.eqb_spec n k) as [->|]; [tauto|exact E]. }
  apply A; [now apply get_none|].
  assert (B : forall (l : dict string) (d : dict V), (forall r m, In (r, m) l -> m <> n) -> get d n = None -> get (fold_left (fun d kn => match get old (fst kn) with Some v => put d (snd kn) v | None => d end) l d) n = None).
  { induction l as [|[r m] l IH]; intros d I E; [exact E|]. cbn. apply IH; [intros r' m' J; apply (I r'); now right|]. destruct (get old r); [|exact E]. rewrite get_put.
    destruct (String.eqb_spec n m) as [->|]; [|exact E]. exfalso. apply (I r m); [now left|reflexivity]. }
  apply B; [|reflexivity]. intros r m I. apply in_get in I; [|apply standard_nodup]. apply standard_names_in in I. now apply P in I.
Qed.
Lemma load_file_other props o (file : dict (variable D)) n : (forall m p, In (m, p) props -> m <> n /\ restart_name p <> n) -> NoDup (keys file) -> n <> "time" ->
  match o with Every => True | Collection l => In n l | Iterator _ => False end ->
  get (fst (load_file props o file)) n = match get file n with Some (Array ds (Some u) x) => Some (Array ds (Some u) x) | _ => None end.
Proof.
  clear disk coupler part. intros P N Nt A. assert (P' : forall m r, In (m, r) (names_of props) -> m <> n /\ r <> n).
  { intros m r I. unfold names_of in I. apply in_map_iff in I. destruct I as ([m' p] & [= <- <-] & I). now apply P. }
  assert (G : get props n = None). { destruct (get props n) as [p|] eqn:G; [|reflexivity]. apply get_in in G. now apply P in G. }
  assert (G' : get (names_of props) n = None). { destruct (get (names_of props) n) as [p|] eqn:G'; [|reflexivity]. apply get_in in G'. now apply P' in G'. }
  assert (M := map_keys_other (names_of props) file n P' N). assert (Tm : String.eqb n "time" = false) by now apply String.eqb_neq.
  unfold load_file. destruct o as [|l|]; cbn [fst]; [| |destruct A]; rewrite (get_fmap (apply_metadata props)); unfold load; rewrite get_filter by apply map_keys_nodup; rewrite M; destruct (get file n) as [[ds [u|] x]|]; try reflexivity; cbn [fst snd];
    rewrite Tm, G'; cbn [has_units units orb andb]; try reflexivity.
  - cbn [option_map]. unfold apply_metadata. now rewrite G.
  - replace (existsb (fun m => String.eqb n m) l) with true; [cbn [option_map]; unfold apply_metadata; now rewrite G|]. symmetry. apply existsb_exists. exists n. split; [exact A|apply String.eqb_refl].
Qed.
Lemma update_var (s : dict (item D T)) (new : dict (variable D)) k : NoDup (keys new) ->
  get (update s (map (fun kv => (fst kv, Var (snd kv))) new)) k = match get new k with Some v => Some (Var v) | None => get s k end.
Proof.
  intro N. rewrite update_get by now rewrite (keys_fmap (fun _ v => Var v)). rewrite (get_fmap (fun _ v => Var v)). now destruct (get new k).
Qed.
Definition latest (files : list string) (r : string) : option (variable D) :=
  fold_right (fun f found => match found with Some v => Some v | None => match disk f with Some file => get file r | None => None end end) None files.
Lemma load_files_get props o n p : NoDup (keys props) -> get props n = Some p -> claimants (names_of props) (restart_name p) = [n] ->
  match o with Every => True | Collection l => In n l | Iterator _ => False end ->
  forall files (s s' : dict (item D T)) o', (forall f file, In f files -> disk f = Some file -> NoDup (keys file) /\ get file n = None) ->
  load_files disk props o files s = inl (s', o') ->
  get s' n = match latest files (restart_name p) with Some v => Some (Var (apply_metadata props n v)) | None => get s n end.
Proof.
  intros Np G C A. induction files as [|f files IH]; intros s s' o' H E; [now injection E as <- <-|]. cbn [load_files] in E. destruct (disk f) as [file|] eqn:Df; [|discriminate].
  destruct (H f file (or_introl eq_refl) Df) as [Nf Ff]. pose proof (load_file_only props o file) as O. pose proof (load_file_get props o file n p Np Nf G C Ff A) as Gn. pose proof (load_file_nodup props o file) as Nn.
  destruct (load_file props o file) as [new o1]. cbn [fst snd] in *. assert (o1 = o) as -> by (destruct o; [exact O|exact O|destruct A]).
  apply IH in E. 2:{ intros f' file' I' D'. apply (H f' file'); [now right|exact D']. }
  rewrite E. cbn [latest fold_right]. fold (latest files (restart_name p)). destruct (latest files (restart_name p)); [reflexivity|].
  rewrite update_var by exact Nn. rewrite Gn, Df. now destruct (get file (restart_name p)).
Qed.
Lemma load_files_other props o n : (forall m p, In (m, p) props -> m <> n /\ restart_name p <> n) -> n <> "time" ->
  match o with Every => True | Collection l => In n l | Iterator _ => False end ->
  forall files (s s' : dict (item D T)) o', (forall f file, In f files -> disk f = Some file -> NoDup (keys file) /\ forall w, get file n = Some w -> units w <> None) ->
  load_files disk props o files s = inl (s', o') ->
  get s' n = match latest files n with Some v => Some (Var v) | None => get s n end.
Proof.
  clear coupler part. intros P Nt A. induction files as [|f files IH]; intros s s' o' H E; [now injection E as <- <-|]. cbn [load_files] in E. destruct (disk f) as [file|] eqn:Df; [|discriminate].
  destruct (H f file (or_introl eq_refl) Df) as [Nf Uf]. pose proof (load_file_only props o file) as O. pose proof (load_file_other props o file n P Nf Nt A) as Gn. pose proof (load_file_nodup props o file) as Nn.
  destruct (load_file props o file) as [new o1]. cbn [fst snd] in *. assert (o1 = o) as -> by (destruct o; [exact O|exact O|destruct A]).
  apply IH in E. 2:{ intros f' file' I' D'. apply (H f' file'); [now right|exact D']. }
  rewrite E. cbn [latest fold_right]. fold (latest files n). destruct (latest files n); [reflexivity|].
  rewrite update_var by exact Nn. rewrite Gn, Df. destruct (get file n) as [[ds [u|] x]|]; try reflexivity. exfalso. now apply (Uf _ eq_refl).
Qed.
Definition names : list string := ["fv_core.res"; "fv_srf_wnd.res"; "fv_tracer.res"; "sfc_data"; "phy_data"].
Lemma latest_paths dirname tile label r : latest (restart_filenames disk dirname tile label) r = latest (map (fun name => path dirname label name tile) names) r.
Proof.
  unfold restart_filenames, RESTART_NAMES, RESTART_OPTIONAL_NAMES, names. cbn [app flat_map existsb map]. cbn [String.eqb Ascii.eqb Bool.eqb orb app].
  destruct (disk (path dirname label "sfc_data" tile)) eqn:A; destruct (disk (path dirname label "phy_data" tile)) eqn:B; cbn [latest fold_right app]; rewrite ?A, ?B; try (destruct (get _ r)); reflexivity.
Qed.
Lemma filenames_in dirname tile label f : In f (restart_filenames disk dirname tile label) -> In f (map (fun name => path dirname label name tile) names).
Proof.
  unfold restart_filenames. rewrite in_flat_map, in_map_iff. intros (name & I & J). exists name. destruct (_ || _) in J; [|destruct J]. destruct J as [J|[]]. split; [exact J|exact I].
Qed.
Lemma latest_holds names' dirname tile label r v : latest (map (fun name => path dirname label name tile) names') r = Some v <->
  exists before name after, names' = before ++ name :: after /\ holds disk (path dirname label name tile) r v /\ forall m w, In m after -> ~ holds disk (path dirname label m tile) r w.
Proof.
  induction names' as [|m l IH].
  - cbn. split; [discriminate|]. intros ([|] & ? & ? & ? & _); discriminate.
  - cbn [map latest fold_right]. fold (latest (map (fun name => path dirname label name tile) l) r). split.
    + destruct (latest _ r) as [w|] eqn:L.
      * intros [= ->]. destruct IH as [IH _]. destruct (IH eq_refl) as (b & n & a & -> & R). exists (m :: b), n, a. split; [reflexivity|exact R].
      * intro G. exists [], m, l. split; [reflexivity|]. split.
        { destruct (disk _) as [file|] eqn:Df; [|discriminate]. exists file. now split. }
        intros m' w I H. assert (X : latest (map (fun name => path dirname label name tile) l) r <> None).
        { clear -I H. induction l as [|a l IH]; [destruct I|]. cbn [map latest fold_right]. fold (latest (map (fun name => path dirname label name tile) l) r).
          destruct (latest _ r) eqn:E; [discriminate|]. destruct I as [->|I]; [|now destruct (IH I)]. destruct H as (file & Hd & Hg). rewrite Hd, Hg. discriminate. }
        contradiction.
    + intros ([|b0 b] & n & a & E & H & Later); injection E as -> ->.
      * destruct (latest (map _ a) r) as [w|] eqn:L.
        { exfalso. clear IH. revert w L. induction a as [|x a IH]; intros w L; [discriminate|]. cbn [map latest fold_right] in L. fold (latest (map (fun name => path dirname label name tile) a) r) in L.
          destruct (latest _ r) eqn:E in L; [eapply IH; [|exact E]; intros m' w' I'; apply Later; now right|]. destruct (disk _) as [file|] eqn:Df; [|discriminate]. apply (Later x w (or_introl eq_refl)). exists file. now split. }
        destruct H as (file & Hd & Hg). now rewrite Hd.
      * destruct IH as [_ IH]. rewrite IH; [reflexivity|]. exists b, n, a. auto.
Qed.
Lemma latest_none names' dirname tile label r : latest (map (fun name => path dirname label name tile) names') r = None <-> forall m w, In m names' -> ~ holds disk (path dirname label m tile) r w.
Proof.
  induction names' as [|m l IH]; [cbn; firstorder|]. cbn [map latest fold_right]. fold (latest (map (fun name => path dirname label name tile) l) r). split.
  - destruct (latest _ r) eqn:L; [discriminate|]. intros G m' w [<-|I] H; [|destruct IH as [IH _]; now apply (IH eq_refl m' w)]. destruct H as (file & Hd & Hg). rewrite Hd in G. congruence.
  - intro H. destruct IH as [_ IH]. rewrite IH by (intros m' w I; apply H; now right). destruct (disk _) as [file|] eqn:Df; [|reflexivity]. destruct (get file r) as [w|] eqn:G; [|reflexivity].
    exfalso. apply (H m w (or_introl eq_refl)). exists file. now split.
Qed.
(** the state of a rank, from the state of the root *)
Lemma rank_state props o dirname tile label rank s : open_restart disk coupler part props o dirname tile label rank = Has s ->
  exists s0, root_state disk coupler props o dirname tile label = Loaded s0 /\ forall k, get s k = option_map (scattered part rank) (get s0 k).
Proof.
  unfold open_restart. destruct (root_state _ _ _ _ _ _ _) as [e|s0]; [destruct (Z.eqb rank 0); discriminate|]. intros [= <-]. exists s0. split; [reflexivity|]. intro k. apply (get_fmap (fun _ => scattered part rank)).
Qed.
Lemma root_loaded props o dirname tile label s : root_state disk coupler props o dirname tile label = Loaded s ->
  exists s1 o1, load_files disk props o (restart_filenames disk dirname tile label) [] = inl (s1, o1) /\ (forall k, k <> "time" -> get s k = get s1 k).
Proof.
  unfold root_state. destruct (restart_filenames disk dirname tile label) as [|f fs] eqn:F; [discriminate|]. destruct (load_files _ _ _ _ _) as [[s1 o1]|] eqn:L; [|discriminate]. intro E. exists s1, o1. split; [reflexivity|].
  intros k N. destruct (coupler _) as [t|]; [|now injection E as <-]. destruct (match o1 with Every => _ | Collection _ => _ | Iterator _ => _ end) in E; injection E as <-; [|reflexivity].
  rewrite get_put. destruct (String.eqb_spec k "time"); [contradiction|reflexivity].
Qed.
Lemma dims_split {A} (old new : list A) : (List.length new <= List.length old)%nat -> exists kept gone, old = kept ++ gone /\ List.length gone = List.length new /\ firstn (List.length old - List.length new) old ++ new = kept ++ new.
Proof.
  intro L. exists (firstn (List.length old - List.length new) old), (skipn (List.length old - List.length new) old). rewrite firstn_skipn. split; [reflexivity|]. split; [|reflexivity]. rewrite skipn_length. lia.
Qed.
Lemma open_value props o dirname tile label rank s n p : NoDup (keys props) -> get props n = Some p -> claimants (names_of props) (restart_name p) = [n] ->
  match o with Every => True | Collection l => In n l | Iterator _ => False end -> n <> "time" ->
  (forall name file, In name names -> disk (path dirname label name tile) = Some file -> NoDup (keys file) /\ get file n = None) ->
  open_restart disk coupler part props o dirname tile label rank = Has s ->
  get s n = match latest (map (fun name => path dirname label name tile) names) (restart_name p) with Some v => Some (Var (Array (apply_dims (dims v) (p_dims p)) (Some (p_units p)) (part rank (data v)))) | None => None end.
Proof.
  intros Np G C A Nt H E. apply rank_state in E. destruct E as (s0 & E & K). apply root_loaded in E. destruct E as (s1 & o1 & E & K1). rewrite K, K1 by exact Nt.
  assert (H' : forall f file, In f (restart_filenames disk dirname tile label) -> disk f = Some file -> NoDup (keys file) /\ get file n = None).
  { intros f file I Hd. apply filenames_in, in_map_iff in I. destruct I as (name & <- & I). exact (H name file I Hd). }
  rewrite (load_files_get props o n p Np G C A _ _ _ _ H' E).
  rewrite latest_paths. destruct (latest _ _) as [v|]; [|reflexivity]. cbn [option_map scattered]. unfold apply_metadata. now rewrite G.
Qed.
Lemma load_files_fails props : forall files o (s : dict (item D T)) f, load_files disk props o files s = inr f <-> exists before after, files = before ++ f :: after /\ disk f = None /\ forall g, In g before -> disk g <> None.
Proof.
  induction files as [|f0 files IH]; intros o s f; cbn [load_files].
  - split; [discriminate|]. intros ([|] & ? & ? & _); discriminate.
  - destruct (disk f0) as [file|] eqn:E.
    + destruct (load_file props o file) as [new o1]. rewrite IH. split.
      * intros (b & a & -> & N & H). exists (f0 :: b), a. split; [reflexivity|]. split; [exact N|]. intros g [<-|I]; [congruence|auto].
      * intros ([|b0 b] & a & X & N & H); injection X as -> ->; [congruence|]. exists b, a. split; [reflexivity|]. split; [exact N|]. intros g I. apply H. now right.
    + split.
      * intros [= ->]. exists [], files. split; [reflexivity|]. split; [exact E|]. intros g [].
      * intros ([|b0 b] & a & X & N & H); injection X as -> ->; [reflexivity|]. exfalso. now apply (H b0 (or_introl eq_refl)).
Qed.
Lemma filenames_eq dirname tile label : exists rest, restart_filenames disk dirname tile label =
    path dirname label "fv_core.res" tile :: path dirname label "fv_srf_wnd.res" tile :: path dirname label "fv_tracer.res" tile :: rest /\ forall f, In f rest -> disk f <> None.
Proof.
  clear coupler part.
  unfold restart_filenames, RESTART_NAMES, RESTART_OPTIONAL_NAMES. cbn [app flat_map existsb String.eqb Ascii.eqb Bool.eqb orb]. eexists. split; [reflexivity|]. intros f I.
  destruct (disk (path dirname label "sfc_data" tile)) eqn:A; destruct (disk (path dirname label "phy_data" tile)) eqn:B; cbn in I; intuition (subst; congruence).
Qed.
Lemma pick_left props (items : dict (variable D)) : forall l, incl (snd (pick props l items)) l.
Proof.
  induction items as [|[n v] items IH]; intro l; [apply incl_refl|]. cbn [pick]. destruct (_ || _); [|apply IH]. destruct (taken n l) as [b l'] eqn:E. specialize (IH l'). destruct (pick props l' items) as [s l''].
  cbn [snd] in *. apply (incl_tran IH). clear -E. revert b l' E. induction l as [|m l IH]; cbn; intros b l' E; [injection E as <- <-; apply incl_refl|]. destruct (String.eqb m n); [injection E as <- <-|apply IH in E]; now apply incl_tl.
Qed.
Lemma load_file_asked props o (file : dict (variable D)) : (forall n, asks (snd (load_file props o file)) n -> asks o n) /\
  forall n v, In (n, v) (fst (load_file props o file)) -> asks o n /\ (n = "time" \/ units v <> None).
Proof.
  clear coupler part.
  assert (M : forall n (w : variable D), n = "time" \/ has_units w = true \/ get props n <> None -> n = "time" \/ units (apply_metadata props n w) <> None).
  { intros n w [H|[H|H]]; [now left| |]; right; unfold apply_metadata; destruct (get props n); cbn; try discriminate; [unfold has_units in H; now destruct (units w)|now destruct H]. }
  assert (L : forall (ask : option (list string)) n w, In (n, w) (load has_units (names_of props) ask file) -> match ask with Some l => In n l | None => True end /\ (n = "time" \/ has_units w = true \/ get props n <> None)).
  { intros ask n w I. unfold load in I. apply filter_In in I. destruct I as [_ I]. cbn [fst snd] in I. apply andb_true_iff in I. destruct I as [A B]. split.
    - destruct ask as [l|]; [|exact Logic.I]. apply existsb_exists in B. destruct B as (m & Hm & B). apply String.eqb_eq in B. now subst.
    - apply orb_true_iff in A. destruct A as [A|A]; [apply orb_true_iff in A; destruct A as [A|A]|].
      + left. now apply String.eqb_eq.
      + now right; left.
      + right; right. unfold names_of in A. rewrite (get_fmap (fun _ => restart_name)) in A. destruct (get props n); [discriminate|discriminate A]. }
  unfold load_file. destruct o as [|l|l]; cbn [fst snd asks].
  - split; [auto|]. intros n v I. apply in_map_iff in I. destruct I as ([m w] & [= <- <-] & I). apply L in I. cbn [fst snd]. split; [exact Logic.I|]. now apply M.
  - split; [auto|]. intros n v I. apply in_map_iff in I. destruct I as ([m w] & [= <- <-] & I). apply (L (Some l)) in I. cbn [fst snd]. split; [tauto|]. now apply M.
  - destruct (pick props l (map_keys file (standard_names (names_of props)))) as [s l'] eqn:P. cbn [fst snd asks]. split.
    + intros n I. pose proof (pick_left props (map_keys file (standard_names (names_of props))) l) as Q. rewrite P in Q. now apply Q.
    + intros n v I. apply in_map_iff in I. destruct I as ([m w] & [= <- <-] & I). cbn [fst snd]. pose proof (pick_sub props (map_keys file (standard_names (names_of props))) l (m, w)) as Q. rewrite P in Q. destruct (Q I) as (_ & A & B). split; [exact A|]. now apply M.
Qed.
Lemma load_files_asked props : forall files o (s s' : dict (item D T)) o', load_files disk props o files s = inl (s', o') ->
  (forall n, asks o' n -> asks o n) /\ forall n i, get s' n = Some i -> get s n = Some i \/ asks o n /\ exists v, i = Var v /\ (n = "time" \/ units v <> None).
Proof.
  clear coupler part. induction files as [|f files IH]; intros o s s' o' E; cbn [load_files] in E; [injection E as <- <-; auto|]. destruct (disk f) as [file|]; [|discriminate].
  destruct (load_file_asked props o file) as [A B]. pose proof (load_file_nodup props o file) as N. destruct (load_file props o file) as [new o1]. cbn [fst snd] in *. apply IH in E. destruct E as [E1 E2]. split; [auto|].
  intros n i G. apply E2 in G. destruct G as [G|[G1 G2]]; [|right; auto]. rewrite update_var in G by exact N. destruct (get new n) as [v|] eqn:Gn; [|now left].
  injection G as <-. right. apply get_in in Gn. apply B in Gn. split; [tauto|]. exists v. tauto.
Qed.
End Proofs.

(** ** C129 *)
(** what the paths are *)
Theorem C129_paths : forall dirname label name tile, dirname <> "" -> ends_with_slash dirname = false -> label <> "" ->
  path dirname "" name tile = (dirname ++ "/" ++ name ++ ".tile" ++ decimal (tile + 1) ++ ".nc")%string /\
  path dirname label name tile = (dirname ++ "/" ++ label ++ "." ++ name ++ ".tile" ++ decimal (tile + 1) ++ ".nc")%string.
Proof.
  intros d l n t Nd S Nl. unfold path, join, prepend_label. destruct d as [|c d]; [contradiction|]. rewrite S. destruct l as [|c' l]; [contradiction|]. split; [reflexivity|]. now rewrite !append_assoc.
Qed.
Print Assumptions C129_paths.
(** Partial: for collections (and None) of names, a property with a restart name of its own.  Every rank gets its part of the variable in the last file that holds it *)
Theorem C129_values_partial : forall D T disk (coupler : string -> option T) (part : Z -> D -> D) props o dirname tile label rank s n p,
  NoDup (keys props) -> get props n = Some p -> claimants (names_of props) (restart_name p) = [n] ->
  match o with Every => True | Collection l => In n l | Iterator _ => False end -> n <> "time" ->
  (forall name file, In name names -> disk (path dirname label name tile) = Some file -> NoDup (keys file) /\ get file n = None) ->
  open_restart disk coupler part props o dirname tile label rank = Has s ->
  (forall before name after v, names = before ++ name :: after -> holds disk (path dirname label name tile) (restart_name p) v ->
     (forall m w, In m after -> ~ holds disk (path dirname label m tile) (restart_name p) w) ->
     exists new_dims, get s n = Some (Var (Array new_dims (Some (p_units p)) (part rank (data v)))) /\
       ((List.length (p_dims p) <= List.length (dims v))%nat -> exists kept gone, dims v = kept ++ gone /\ List.length gone = List.length (p_dims p) /\ new_dims = kept ++ p_dims p)) /\
  ((forall m w, In m names -> ~ holds disk (path dirname label m tile) (restart_name p) w) -> get s n = None).
Proof.
  intros D T disk coupler part props o dirname tile label rank s n p Np G C A Nt H E. rewrite (open_value disk coupler part props o dirname tile label rank s n p Np G C A Nt H E). split.
  - intros b name a v X Hv L. assert (Y : latest disk (map (fun name => path dirname label name tile) names) (restart_name p) = Some v) by (apply latest_holds; exists b, name, a; auto).
    rewrite Y. eexists. split; [reflexivity|]. intro Le. unfold apply_dims. destruct (Nat.leb_spec (List.length (p_dims p)) (List.length (dims v))); [|lia].
    destruct (dims_split (dims v) (p_dims p) Le) as (k & g & E1 & E2 & E3). exists k, g. auto.
  - intro N. assert (Y : latest disk (map (fun name => path dirname label name tile) names) (restart_name p) = None) by now apply latest_none. now rewrite Y.
Qed.
Print Assumptions C129_values_partial.
(** Partial in the same way: a variable that no property is about, but that has units in the files, is loaded under its own name with its own dimensions and units *)
Theorem C129_others_partial : forall D T disk (coupler : string -> option T) (part : Z -> D -> D) props o dirname tile label rank s n,
  (forall m p, In (m, p) props -> m <> n /\ restart_name p <> n) -> n <> "time" ->
  match o with Every => True | Collection l => In n l | Iterator _ => False end ->
  (forall name file, In name names -> disk (path dirname label name tile) = Some file -> NoDup (keys file) /\ forall w, get file n = Some w -> units w <> None) ->
  open_restart disk coupler part props o dirname tile label rank = Has s ->
  forall before name after v, names = before ++ name :: after -> holds disk (path dirname label name tile) n v ->
    (forall m w, In m after -> ~ holds disk (path dirname label m tile) n w) ->
    get s n = Some (Var (Array (dims v) (units v) (part rank (data v)))).
Proof.
  intros D T disk coupler part props o dirname tile label rank s n P Nt A H E before name after v X Hv L.
  assert (Y : latest disk (map (fun name => path dirname label name tile) names) n = Some v) by (apply latest_holds; exists before, name, after; auto).
  apply rank_state in E. destruct E as (s0 & E & K). apply root_loaded in E. destruct E as (s1 & o1 & E & K1). rewrite K, K1 by exact Nt.
  assert (H' : forall f file, In f (restart_filenames disk dirname tile label) -> disk f = Some file -> NoDup (keys file) /\ forall w, get file n = Some w -> units w <> None).
  { intros f file I Hd. apply filenames_in, in_map_iff in I. destruct I as (name' & <- & I). exact (H name' file I Hd). }
  rewrite (load_files_other disk props o n P Nt A _ _ _ _ H' E), latest_paths. rewrite Y. now destruct v.
Qed.
Print Assumptions C129_others_partial.
(** the time is that of the coupler file, on every rank, if it is asked for *)
Theorem C129_time : forall D T disk (coupler : string -> option T) (part : Z -> D -> D) props o dirname tile label rank s t,
  match o with Every => True | Collection l => In "time" l | Iterator _ => False end ->
  open_restart disk coupler part props o dirname tile label rank = Has s ->
  coupler (join dirname (prepend_label "coupler.res" label)) = Some t -> get s "time" = Some (Date t).
Proof.
  intros D T disk coupler part props o dirname tile label rank s t A E C. apply rank_state in E. destruct E as (s0 & E & K). rewrite K. unfold root_state in E.
  destruct (restart_filenames disk dirname tile label) as [|f fs] eqn:F; [discriminate|]. destruct (load_files disk props o (f :: fs) []) as [[s1 o1]|] eqn:L; [|discriminate].
  assert (o1 = o) as ->.
  { clear -A L. revert L. generalize (@nil (string * item D T)). generalize (f :: fs). intro l. induction l as [|g l IH]; intros s0 L; [now injection L as <- <-|]. cbn [load_files] in L. destruct (disk g) as [file|]; [|discriminate].
    pose proof (load_file_only props o file) as O. destruct (load_file props o file) as [new o2]. cbn [snd] in O. assert (o2 = o) as -> by (destruct o; [exact O|exact O|destruct A]). now apply IH in L. }
  unfold COUPLER_RES_NAME in E. rewrite C in E. assert (B : (match o with Every => true | Collection l => existsb (String.eqb "time") l | Iterator l => fst (taken "time" l) end) = true).
  { destruct o; [reflexivity| |destruct A]. apply existsb_exists. exists "time". split; [exact A|reflexivity]. }
  rewrite B in E. injection E as <-. rewrite get_put. reflexivity.
Qed.
Print Assumptions C129_time.
(** whatever the names are given as, nothing is loaded that was not asked for, and every variable but the time has units *)
Theorem C129_nothing_else : forall D T disk (coupler : string -> option T) (part : Z -> D -> D) props o dirname tile label rank s n i,
  open_restart disk coupler part props o dirname tile label rank = Has s -> get s n = Some i ->
  asks o n /\ (n = "time" \/ exists v, i = Var v /\ units v <> None).
Proof.
  intros D T disk coupler part props o dirname tile label rank s n i E G. apply rank_state in E. destruct E as (s0 & E & K). rewrite K in G. unfold root_state in E.
  destruct (restart_filenames disk dirname tile label) as [|f fs] eqn:F; [discriminate|]. destruct (load_files disk props o (f :: fs) []) as [[s1 o1]|] eqn:L; [|discriminate].
  apply load_files_asked in L. destruct L as [L1 L2].
  assert (B : forall i, get s1 n = Some i -> asks o n /\ (n = "time" \/ exists v, scattered part rank i = Var v /\ units v <> None)).
  { intros i0 G0. destruct (L2 n i0 G0) as [X|[X (v & -> & Y)]]; [discriminate|]. split; [exact X|]. destruct Y as [Y|Y]; [now left|]. right. eexists. split; [reflexivity|exact Y]. }
  assert (Q : s0 = s1 \/ (exists t, s0 = put s1 "time" (Date t)) /\ asks o "time").
  { destruct (coupler _) as [t|]; [|left; congruence]. destruct (match o1 with Every => _ | Collection _ => _ | Iterator _ => _ end) eqn:O in E; injection E as <-; [|now left]. right. split; [now exists t|]. apply L1.
    destruct o1 as [|l|l]; [exact I| |]; cbn [asks]; [|rewrite taken_in in O]; apply existsb_exists in O; destruct O as (m & M & O); apply String.eqb_eq in O; now subst. }
  destruct Q as [->|[[t ->] At]].
  - destruct (get s1 n) as [i0|] eqn:G0; [|discriminate]. injection G as <-. now apply B.
  - rewrite get_put in G. destruct (String.eqb_spec n "time") as [->|Nt]; [split; [exact At|now left]|]. destruct (get s1 n) as [i0|] eqn:G0; [|discriminate]. injection G as <-. now apply B.
Qed.
Print Assumptions C129_nothing_else.
(** tracer properties are added to the standard ones and replace none *)
Theorem C129_tracers : forall standard tracers n, NoDup (keys standard) -> get (properties standard (Some tracers)) n = match get standard n with Some p => Some p | None => get tracers n end.
Proof. intros s t n N. unfold properties. now apply update_get. Qed.
Print Assumptions C129_tracers.
(** opening succeeds, on every rank, exactly if the tile has its three dynamics files; the files of the surface and the physics may be missing *)
Theorem C129_files : forall D T disk (coupler : string -> option T) (part : Z -> D -> D) props o dirname tile label rank,
  (exists s, open_restart disk coupler part props o dirname tile label rank = Has s) <->
  (forall name, In name ["fv_core.res"; "fv_srf_wnd.res"; "fv_tracer.res"] -> disk (path dirname label name tile) <> None).
Proof.
  intros D T disk coupler part props o dirname tile label rank. destruct (filenames_eq disk dirname tile label) as (rest & F & R). unfold open_restart, root_state. rewrite F.
  set (fs := _ :: _). destruct (load_files disk props o fs []) as [[s1 o1]|f] eqn:L.
  - split.
    + intros _ name I N. assert (In (path dirname label name tile) fs) by (unfold fs; cbn in I |- *; destruct I as [<-|[<-|[<-|[]]]]; tauto).
      clear F. clearbody fs. assert (X : forall fs o (s : dict (item D T)), In (path dirname label name tile) fs -> exists f, load_files disk props o fs s = inr f).
      { clear -N. induction fs as [|g fs IH]; intros o s I; [destruct I|]. cbn [load_files]. destruct (disk g) as [file|] eqn:E; [|now exists g]. destruct (load_file props o file) as [new o1]. apply IH. destruct I as [->|I]; [congruence|exact I]. }
      destruct (X fs o [] H) as [f E]. congruence.
    + intros _. destruct (coupler _); [destruct (match o1 with Every => _ | Collection _ => _ | Iterator _ => _ end)|]; eexists; reflexivity.
  - split.
    + intros [s E]. destruct (Z.eqb rank 0); discriminate.
    + intro H. apply load_files_fails in L. destruct L as (b & a & E & N & _). exfalso. assert (I : In f fs) by (rewrite E; apply in_or_app; right; now left).
      unfold fs in I. destruct I as [<-|[<-|[<-|I]]]; try (revert N; apply H; cbn; tauto). now apply R in I.
Qed.
Print Assumptions C129_files.
(** the root of a tile names the first file that is missing *)
Theorem C129_missing : forall D T disk (coupler : string -> option T) (part : Z -> D -> D) props o dirname tile label before name after,
  ["fv_core.res"; "fv_srf_wnd.res"; "fv_tracer.res"] = before ++ name :: after -> (forall m, In m before -> disk (path dirname label m tile) <> None) -> disk (path dirname label name tile) = None ->
  open_restart disk coupler part props o dirname tile label 0 = Exception (FileNotFound (path dirname label name tile)).
Proof.
  intros D T disk coupler part props o dirname tile label before name after E H N. destruct (filenames_eq disk dirname tile label) as (rest & F & R). unfold open_restart, root_state. rewrite F.
  set (fs := _ :: _). assert (L : load_files disk props o fs [] = inr (path dirname label name tile) :> (dict (item D T) * only) + string).
  { apply load_files_fails. exists (map (fun name => path dirname label name tile) before), (map (fun name => path dirname label name tile) after ++ rest). split; [|split; [exact N|]].
    - change (path dirname label name tile :: map (fun name0 => path dirname label name0 tile) after ++ rest) with (map (fun name => path dirname label name tile) (name :: after) ++ rest). rewrite app_assoc, <- map_app, <- E. reflexivity.
    - intros g I. apply in_map_iff in I. destruct I as (m & <- & I). now apply H. }
  rewrite L. reflexivity.
Qed.
Print Assumptions C129_missing.
(** different tiles have different files *)
Theorem C129_tiles : forall dirname label name name' tile tile', In name names -> In name' names -> path dirname label name tile = path dirname label name' tile' -> name = name' /\ tile = tile'.
Proof.
  intros d l n n' t t' I I' E. assert (E' : (prepend_label n l ++ ".tile" ++ decimal (t + 1) ++ ".nc")%string = (prepend_label n' l ++ ".tile" ++ decimal (t' + 1) ++ ".nc")%string).
  { unfold path, join in E. destruct d; [exact E|]. destruct (ends_with_slash _); [now apply append_inj_l in E|]. apply append_inj_l in E. now apply append_inj_l in E. }
  assert (E2 : (n ++ ".tile" ++ decimal (t + 1) ++ ".nc")%string = (n' ++ ".tile" ++ decimal (t' + 1) ++ ".nc")%string).
  { unfold prepend_label in E'. destruct l; [exact E'|]. rewrite !append_assoc in E'. apply append_inj_l in E'. now apply append_inj_l in E'. }
  assert (N : n = n').
  { cbn in I, I'. destruct I as [<-|[<-|[<-|[<-|[<-|[]]]]]], I' as [<-|[<-|[<-|[<-|[<-|[]]]]]]; reflexivity || (exfalso; cbn in E2; discriminate E2). }
  subst n'. split; [reflexivity|]. apply append_inj_l in E2. apply append_inj_l in E2. apply append_inj_r in E2. apply decimal_inj in E2. lia.
Qed.
Print Assumptions C129_tiles.
(** a rank depends on the files of its own tile and the coupler file only *)
Theorem C129_own_tile : forall D T disk disk' (coupler coupler' : string -> option T) (part : Z -> D -> D) props o dirname tile label rank,
  (forall name, In name names -> disk (path dirname label name tile) = disk' (path dirname label name tile)) ->
  coupler (join dirname (prepend_label "coupler.res" label)) = coupler' (join dirname (prepend_label "coupler.res" label)) ->
  open_restart disk coupler part props o dirname tile label rank = open_restart disk' coupler' part props o dirname tile label rank.
Proof.
  intros D T disk disk' coupler coupler' part props o dirname tile label rank H C. assert (F : restart_filenames disk dirname tile label = restart_filenames disk' dirname tile label).
  { unfold restart_filenames, RESTART_NAMES, RESTART_OPTIONAL_NAMES. cbn [app flat_map existsb String.eqb Ascii.eqb Bool.eqb orb]. rewrite !H by (cbn; tauto). reflexivity. }
  assert (L : forall fs o (s : dict (item D T)), (forall f, In f fs -> disk f = disk' f) -> load_files disk props o fs s = load_files disk' props o fs s).
  { induction fs as [|f fs IH]; intros o' s A; [reflexivity|]. cbn [load_files]. rewrite <- (A f) by now left. destruct (disk f) as [file|]; [|reflexivity]. destruct (load_file props o' file) as [new o1]. apply IH. intros g I. apply A. now right. }
  unfold open_restart, root_state, COUPLER_RES_NAME. rewrite <- F, <- C. rewrite <- L; [reflexivity|]. intros f I. apply filenames_in, in_map_iff in I. destruct I as (name & <- & I). now apply H.
Qed.
Print Assumptions C129_own_tile.

(** ** Findings *)
(** the ValueError for a directory without restart files is never raised; and while the root of the tile raises FileNotFoundError, its other ranks wait for it *)
Theorem C129_no_files_refuted : exists (disk : string -> option (dict (variable Z))), (forall f, disk f = None) /\
  forall (coupler : string -> option Z) part props o dirname tile label,
    open_restart disk coupler part props o dirname tile label 0 = Exception (FileNotFound (path dirname label "fv_core.res" tile)) /\
    forall rank, rank <> 0%Z -> open_restart disk coupler part props o dirname tile label rank = Waits.
Proof.
  exists (fun _ => None). split; [reflexivity|]. intros coupler part props o dirname tile label. split; [reflexivity|]. intros rank N. unfold open_restart, root_state. cbn. destruct (Z.eqb_spec rank 0); [contradiction|reflexivity].
Qed.
Print Assumptions C129_no_files_refuted.
Definition props3 : dict property := [("air_temperature", Entry "T" ["z"; "y"; "x"] "degK"); ("x_wind", Entry "u" ["z"; "y_interface"; "x"] "m/s"); ("land_sea_mask", Entry "slmsk" ["y"; "x"] "")].
Definition core : dict (variable Z) := [("T", Array ["zaxis_1"; "yaxis_2"; "xaxis_1"] None 1%Z); ("u", Array ["zaxis_1"; "yaxis_1"; "xaxis_1"] None 2%Z)].
Definition disk3 (f : string) : option (dict (variable Z)) :=
  if String.eqb f "RESTART/fv_core.res.tile2.nc" then Some core else if String.eqb f "RESTART/fv_srf_wnd.res.tile2.nc" then Some [] else if String.eqb f "RESTART/fv_tracer.res.tile2.nc" then Some []
  else if String.eqb f "RESTART/sfc_data.tile2.nc" then Some [("slmsk", Array ["yaxis_1"; "xaxis_1"] (Some "none") 3%Z)] else None.
Example C129_others_case : let disk f := if String.eqb f "RESTART/fv_core.res.tile2.nc" then Some [("T", Array ["y"; "x"] None 3%Z); ("aerosol", Array ["x"] (Some "kg") 4%Z)] else if existsb (String.eqb f) ["RESTART/fv_srf_wnd.res.tile2.nc"; "RESTART/fv_tracer.res.tile2.nc"] then Some [] else None in
  exists s, open_restart disk (fun _ => Some 5%Z) (fun r d => (10 * d + r)%Z) props3 Every "RESTART" 1 "" 2 = Has s /\ get s "aerosol" = Some (Var (Array ["x"] (Some "kg") 42%Z)).
Proof. eexists. split; vm_compute; reflexivity. Qed.
(** names that come from an iterator: after the search for the first name the second is gone *)
Theorem C129_iterator_refuted : exists s s', open_restart disk3 (fun _ => Some 5%Z) (fun r d => (10 * d + r)%Z) props3 (Collection ["x_wind"; "air_temperature"]) "RESTART" 1 "" 2 = Has s /\
  open_restart disk3 (fun _ => Some 5%Z) (fun r d => (10 * d + r)%Z) props3 (Iterator ["x_wind"; "air_temperature"]) "RESTART" 1 "" 2 = Has s' /\ keys s = ["air_temperature"; "x_wind"] /\ keys s' = ["air_temperature"].
Proof. eexists. eexists. split; [vm_compute; reflexivity|]. split; [vm_compute; reflexivity|]. split; reflexivity. Qed.
Print Assumptions C129_iterator_refuted.
(** a variable with fewer dimensions than its property gets the first names of the property, not the last *)
Theorem C129_dims_refuted : exists disk s, disk "RESTART/fv_core.res.tile2.nc" = Some [("T", Array ["yaxis_2"; "xaxis_1"] None 1%Z)] /\
  open_restart disk (fun _ => @None Z) (fun _ d => d) props3 Every "RESTART" 1 "" 0 = Has s /\ get s "air_temperature" = Some (Var (Array ["z"; "y"] (Some "degK") 1%Z)).
Proof.
  exists (fun f => if String.eqb f "RESTART/fv_core.res.tile2.nc" then Some [("T", Array ["yaxis_2"; "xaxis_1"] None 1%Z)] else disk3 f). eexists. split; [reflexivity|]. split; [vm_compute; reflexivity|reflexivity].
Qed.
Print Assumptions C129_dims_refuted.

Example C129_case : open_restart disk3 (fun f => if String.eqb f "RESTART/coupler.res" then Some 5%Z else None) (fun r d => (10 * d + r)%Z) props3 Every "RESTART" 1 "" 2 =
  Has [("air_temperature", Var (Array ["z"; "y"; "x"] (Some "degK") 12%Z)); ("x_wind", Var (Array ["z"; "y_interface"; "x"] (Some "m/s") 22%Z)); ("land_sea_mask", Var (Array ["y"; "x"] (Some "") 32%Z)); ("time", Date 5%Z)] /\
  claimants (names_of props3) "T" = ["air_temperature"].
Proof. vm_compute. auto. Qed.
