(** The cube boundaries against the geometric specification. *)
From Verif Require Import Base PartModel PartSpec PartProofs.
From Coq Require Import ZifyBool.

Lemma enc_mod_cube n t r c :
  0 <= r < n -> 0 <= c < n -> enc n t r c mod cube_ranks (n, n) = enc n (t mod 6) r c.
Proof.
  intros Hr Hc. unfold cube_ranks, tile_ranks, enc. cbn [fst snd].
  pose proof (within_lt r c n n Hr Hc) as Hw.
  pose proof (Z.mod_pos_bound t 6 ltac:(lia)) as Hm.
  rewrite (Z.div_mod t 6) at 1 by lia.
  set (q := t / 6) in *. set (s := t mod 6) in *.
  replace ((6 * q + s) * (n * n) + (r * n + c)) with (q * (6 * (n * n)) + (s * (n * n) + (r * n + c))) by ring.
  apply mod_add_mul. nia.
Qed.

(** Corner results in (tile,row,col,rotation) form. *)
Definition then_to (f : Z -> Z -> Z -> Z -> Z * Z * Z * Z) (n : Z) (x : Z * Z * Z * Z) : Z * Z * Z * Z :=
  match x with (t, r, c, k) => match f n t r c with (t', r', c', k') => (t', r', c', k + k') end end.

Definition corner_to (n t r c : Z) (bt : btype) : option (Z * Z * Z * Z) :=
  match bt with
  | WEST => Some (left_to n t r c) | EAST => Some (right_to n t r c)
  | NORTH => Some (top_to n t r c) | SOUTH => Some (bottom_to n t r c)
  | NORTHWEST =>
      if (r =? n - 1) && (c =? 0) then None
      else Some (then_to (if is_even t && (c =? 0) then left_to else top_to) n (left_to n t r c))
  | NORTHEAST =>
      if (r =? n - 1) && (c =? n - 1) then None
      else Some (then_to (if is_even t && (r =? n - 1) then bottom_to else right_to) n (top_to n t r c))
  | SOUTHWEST =>
      if (r =? 0) && (c =? 0) then None
      else Some (then_to (if negb (is_even t) && (r =? 0) then top_to else left_to) n (bottom_to n t r c))
  | SOUTHEAST =>
      if (r =? 0) && (c =? n - 1) then None
      else Some (then_to (if negb (is_even t) && (r =? 0) then bottom_to else right_to) n (bottom_to n t r c))
  end.

Definition good (n : Z) (x : Z * Z * Z * Z) : Prop :=
  match x with (t, r, c, k) => 0 <= r < n /\ 0 <= c < n end.

Lemma left_good n t r c : 0 <= r < n -> 0 <= c < n -> good n (left_to n t r c).
Proof. intros; unfold left_to; destruct (c =? 0) eqn:?; [destruct (is_even t)|]; cbn; lia. Qed.
Lemma right_good n t r c : 0 <= r < n -> 0 <= c < n -> good n (right_to n t r c).
Proof. intros; unfold right_to; destruct (c =? n - 1) eqn:?; [destruct (is_even t)|]; cbn; lia. Qed.
Lemma top_good n t r c : 0 <= r < n -> 0 <= c < n -> good n (top_to n t r c).
Proof. intros; unfold top_to; destruct (r =? n - 1) eqn:?; [destruct (is_even t)|]; cbn; lia. Qed.
Lemma bottom_good n t r c : 0 <= r < n -> 0 <= c < n -> good n (bottom_to n t r c).
Proof. intros; unfold bottom_to; destruct (r =? 0) eqn:?; [destruct (is_even t)|]; cbn; lia. Qed.

Lemma cube_corner_enc bt n rank x (e1 e2 : Z -> option boundary) bt1 bt2 f :
  e1 rank = Some (as_b bt1 n rank x) -> good n x ->
  (forall t r c, 0 <= r < n -> 0 <= c < n -> e2 (enc n t r c) = Some (as_b bt2 n (enc n t r c) (f n t r c))) ->
  cube_get_corner bt rank e1 e2 = Some (as_b bt n rank (then_to f n x)).
Proof.
  intros H1 Hg H2. unfold cube_get_corner. rewrite H1. cbn [bind].
  destruct x as [[[t r] c] k]. cbn [as_b b_to b_rot good] in *.
  rewrite H2 by lia. cbn [bind then_to]. destruct (f n t r c) as [[[t' r'] c'] k']. reflexivity.
Qed.

Lemma then_good f n x :
  (forall t r c, 0 <= r < n -> 0 <= c < n -> good n (f n t r c)) -> good n x -> good n (then_to f n x).
Proof.
  intros Hf. destruct x as [[[t r] c] k]. cbn [good then_to]. intros Hg.
  specialize (Hf t r c ltac:(lia) ltac:(lia)). destruct (f n t r c) as [[[t' r'] c'] k']. exact Hf.
Qed.

(** [cube_boundary] in closed form. *)
Lemma cube_boundary_enc n t r c bt :
  0 <= r < n -> 0 <= c < n ->
  cube_boundary (n, n) bt (enc n t r c)
  = Some (match corner_to n t r c bt with
          | None => None
          | Some (t', r', c', k) => Some (mkB bt (enc n t r c) (enc n (t' mod 6) r' c') k)
          end).
Proof.
  intros Hr Hc.
  assert (F : forall x, good n x ->
     (match Some (as_b bt n (enc n t r c) x) with
      | None => Some None | Some b => Some (Some (with_to b (b_to b mod cube_ranks (n, n)))) end)
     = Some (match x with (t', r', c', k) => Some (mkB bt (enc n t r c) (enc n (t' mod 6) r' c') k) end)).
  { intros [[[t' r'] c'] k] Hg. cbn [good] in Hg. unfold as_b, with_to. cbn [b_type b_from b_to b_rot].
    rewrite enc_mod_cube by lia. reflexivity. }
  pose proof (left_enc n n t r c Hr Hc) as HL. pose proof (right_enc n n t r c Hr Hc) as HR.
  pose proof (top_enc n n t r c Hr Hc) as HT. pose proof (bottom_enc n n t r c Hr Hc) as HB.
  cbn zeta in HL, HR, HT, HB. fold (enc n t r c) in HL, HR, HT, HB.
  assert (GL := fun t => left_good n t). assert (GR := fun t => right_good n t).
  assert (GT := fun t => top_good n t). assert (GB := fun t => bottom_good n t).
  destruct bt; cbn [cube_boundary corner_to];
    unfold cube_boundary, cube_top_left, cube_top_right, cube_bottom_left, cube_bottom_right;
    rewrite ?HL, ?HR, ?HT, ?HB, ?tile_index_enc by lia.
  - rewrite cube_left_enc by lia. cbn [bind]. rewrite (F _ (GL _ _ _ Hr Hc)). reflexivity.
  - rewrite cube_right_enc by lia. cbn [bind]. rewrite (F _ (GR _ _ _ Hr Hc)). reflexivity.
  - rewrite cube_top_enc by lia. cbn [bind]. rewrite (F _ (GT _ _ _ Hr Hc)). reflexivity.
  - rewrite cube_bottom_enc by lia. cbn [bind]. rewrite (F _ (GB _ _ _ Hr Hc)). reflexivity.
  - destruct ((r =? n - 1) && (c =? 0)); [reflexivity|].
    destruct (is_even t && (c =? 0)).
    + erewrite (cube_corner_enc NORTHWEST n _ (left_to n t r c)); [|apply cube_left_enc; lia|auto|].
      2: { intros; apply cube_left_enc; lia. }
      cbn [bind]. apply F. apply then_good; auto.
    + erewrite (cube_corner_enc NORTHWEST n _ (left_to n t r c)); [|apply cube_left_enc; lia|auto|].
      2: { intros; apply cube_top_enc; lia. }
      cbn [bind]. apply F. apply then_good; auto.
  - destruct ((r =? n - 1) && (c =? n - 1)); [reflexivity|].
    destruct (is_even t && (r =? n - 1)).
    + erewrite (cube_corner_enc NORTHEAST n _ (top_to n t r c)); [|apply cube_top_enc; lia|auto|].
      2: { intros; apply cube_bottom_enc; lia. }
      cbn [bind]. apply F. apply then_good; auto.
    + erewrite (cube_corner_enc NORTHEAST n _ (top_to n t r c)); [|apply cube_top_enc; lia|auto|].
      2: { intros; apply cube_right_enc; lia. }
      cbn [bind]. apply F. apply then_good; auto.
  - destruct ((r =? 0) && (c =? 0)); [reflexivity|].
    destruct (negb (is_even t) && (r =? 0)).
    + erewrite (cube_corner_enc SOUTHWEST n _ (bottom_to n t r c)); [|apply cube_bottom_enc; lia|auto|].
      2: { intros; apply cube_top_enc; lia. }
      cbn [bind]. apply F. apply then_good; auto.
    + erewrite (cube_corner_enc SOUTHWEST n _ (bottom_to n t r c)); [|apply cube_bottom_enc; lia|auto|].
      2: { intros; apply cube_left_enc; lia. }
      cbn [bind]. apply F. apply then_good; auto.
  - destruct ((r =? 0) && (c =? n - 1)); [reflexivity|].
    destruct (negb (is_even t) && (r =? 0)).
    + erewrite (cube_corner_enc SOUTHEAST n _ (bottom_to n t r c)); [|apply cube_bottom_enc; lia|auto|].
      2: { intros; apply cube_bottom_enc; lia. }
      cbn [bind]. apply F. apply then_good; auto.
    + erewrite (cube_corner_enc SOUTHEAST n _ (bottom_to n t r c)); [|apply cube_bottom_enc; lia|auto|].
      2: { intros; apply cube_right_enc; lia. }
      cbn [bind]. apply F. apply then_good; auto.
Qed.

Ltac tiles t H :=
  assert (Hcases : t = 0 \/ t = 1 \/ t = 2 \/ t = 3 \/ t = 4 \/ t = 5) by lia;
  clear H; destruct Hcases as [-> | [-> | [-> | [-> | [-> | ->]]]]].

Ltac evens :=
  repeat match goal with
  | |- context [is_even ?a] =>
      let v := eval vm_compute in (is_even a) in
      match v with true => change (is_even a) with true | false => change (is_even a) with false end
  end.

Ltac ifs :=
  repeat (evens; cbn [andb negb]; match goal with
  | |- context [if ?b then _ else _] =>
      let E := fresh "E" in destruct b eqn:E; try (exfalso; lia)
  end).

Lemma corner_to_geometry n t r c bt :
  0 <= t < 6 -> 0 <= r < n -> 0 <= c < n ->
  let x := centre n c + 2 * dx bt in
  let y := centre n r + 2 * dy bt in
  match corner_to n t r c bt with
  | None => fold n t x y = None
  | Some (t', r', c', k) => is_neighbour n t x y (t' mod 6) r' c' k
  end.
Proof.
  intros Ht Hr Hc x y.
  tiles t Ht; destruct bt;
    unfold corner_to, then_to, left_to, right_to, top_to, bottom_to, x, y, dx, dy.
  all: ifs.
  all: unfold is_neighbour, centre in *.
  all: match goal with
       | |- context [?a mod 6] => let v := eval vm_compute in (a mod 6) in change (a mod 6) with v
       | _ => idtac end.
  all: unfold fold, carried_ax, carried_ay, surface.
  all: repeat match goal with |- _ /\ _ => split end; try lia.
  all: ifs; try reflexivity; try lia.
  all: try (apply f_equal).
  all: cbn [nrm ax ay vadd vscale vopp turn_x turn_y].
  all: repeat match goal with |- (_, _) = (_, _) => apply f_equal2 end; try lia.
Qed.

(** ** Mutuality *)
Definition bt_of (a b : Z) : btype :=
  match a, b with
  | -1, 0 => WEST | 1, 0 => EAST | 0, 1 => NORTH | 0, -1 => SOUTH
  | -1, 1 => NORTHWEST | 1, 1 => NORTHEAST | -1, -1 => SOUTHWEST | _, _ => SOUTHEAST
  end.
Definition back (bt : btype) (k : Z) : btype :=
  let '(a, b) := seen_from k (- dx bt) (- dy bt) in bt_of a b.

Lemma corner_to_back n t r c bt :
  0 <= t < 6 -> 0 <= r < n -> 0 <= c < n ->
  match corner_to n t r c bt with
  | None => True
  | Some (t', r', c', k) =>
      match corner_to n (t' mod 6) r' c' (back bt k) with
      | None => False
      | Some (t'', r'', c'', k') =>
          t'' mod 6 = t /\ r'' = r /\ c'' = c /\ (k + k') mod 4 = 0 /\
          (dx (back bt k), dy (back bt k)) = seen_from k (- dx bt) (- dy bt)
      end
  end.
Proof.
  intros Ht Hr Hc.
  tiles t Ht; destruct bt;
    unfold corner_to at 1, then_to, left_to, right_to, top_to, bottom_to.
  all: ifs; try exact I.
  all: match goal with
       | |- context [back ?b ?k] => let v := eval vm_compute in (back b k) in change (back b k) with v end.
  all: match goal with
       | |- context [?a mod 6] => let v := eval vm_compute in (a mod 6) in change (a mod 6) with v
       | _ => idtac end.
  all: unfold corner_to, then_to, left_to, right_to, top_to, bottom_to.
  all: ifs.
  all: repeat match goal with |- _ /\ _ => split end; try reflexivity; try lia.
Qed.

(** ** Injectivity of the embedding *)
Lemma surface_inj n t x y t' x' y' :
  0 <= t < 6 -> 0 <= t' < 6 -> - n < x < n -> - n < y < n -> - n < x' < n -> - n < y' < n ->
  surface n t x y = surface n t' x' y' -> t = t' /\ x = x' /\ y = y'.
Proof.
  intros Ht Ht' Hx Hy Hx' Hy' E.
  tiles t Ht; tiles t' Ht'; unfold surface in E; cbn [nrm ax ay vadd vscale] in E;
    injection E as E1 E2 E3; repeat split; try lia.
Qed.

Definition lin (t a b c : Z) : vec := vadd (vscale a (nrm t)) (vadd (vscale b (ax t)) (vscale c (ay t))).

Lemma lin_inj t a b c a' b' c' :
  0 <= t < 6 -> lin t a b c = lin t a' b' c' -> a = a' /\ b = b' /\ c = c'.
Proof.
  intros Ht E. unfold lin in E.
  tiles t Ht; cbn [nrm ax ay vadd vscale] in E; injection E as E1 E2 E3; lia.
Qed.

Lemma fold_inj n t x1 y1 x2 y2 p :
  0 <= t < 6 -> 0 < n ->
  - n - 1 <= x1 <= n + 1 -> - n - 1 <= y1 <= n + 1 -> - n - 1 <= x2 <= n + 1 -> - n - 1 <= y2 <= n + 1 ->
  Z.abs x1 <> n -> Z.abs y1 <> n -> Z.abs x2 <> n -> Z.abs y2 <> n ->
  fold n t x1 y1 = Some p -> fold n t x2 y2 = Some p -> x1 = x2 /\ y1 = y2.
Proof.
  intros Ht Hn Hx1 Hy1 Hx2 Hy2 A1 A2 A3 A4 F1 F2.
  unfold fold, surface in *.
  repeat match goal with
  | H : context [if ?b then _ else _] |- _ => destruct b eqn:?; try discriminate
  end;
  injection F1 as <-; injection F2 as E;
  apply lin_inj in E; try assumption; lia.
Qed.

Lemma enc_inj n t r c t' r' c' :
  0 <= r < n -> 0 <= c < n -> 0 <= r' < n -> 0 <= c' < n ->
  enc n t r c = enc n t' r' c' -> t = t' /\ r = r' /\ c = c'.
Proof.
  intros Hr Hc Hr' Hc' E.
  assert (Et : t = t') by (rewrite <- (tile_index_enc n t r c), <- (tile_index_enc n t' r' c'), E by lia; reflexivity).
  subst t'. unfold enc in E.
  change (r * n + c) with (rank_array (n, n) r c) in E. change (r' * n + c') with (rank_array (n, n) r' c') in E.
  assert (E' : rank_array (n, n) r c = rank_array (n, n) r' c') by lia.
  apply rank_array_inj in E'; lia.
Qed.

Lemma rank_decompose n rank :
  0 < n -> 0 <= rank < 6 * (n * n) ->
  exists t r c, 0 <= t < 6 /\ 0 <= r < n /\ 0 <= c < n /\ rank = enc n t r c.
Proof.
  intros Hn Hr. exists (rank / (n * n)), ((rank mod (n * n)) / n), ((rank mod (n * n)) mod n).
  assert (Hm : 0 < n * n) by nia.
  pose proof (Z.mod_pos_bound rank (n * n) Hm). pose proof (Z.mod_pos_bound (rank mod (n * n)) n Hn).
  repeat split; try lia.
  - apply Z.div_pos; lia.
  - apply Z.div_lt_upper_bound; lia.
  - apply Z.div_pos; lia.
  - apply Z.div_lt_upper_bound; lia.
  - unfold enc. rewrite (Z.div_mod rank (n * n)) at 1 by lia.
    rewrite (Z.div_mod (rank mod (n * n)) n) at 1 by lia. ring.
Qed.

Lemma enc_range n t r c : 0 <= t < 6 -> 0 <= r < n -> 0 <= c < n -> 0 <= enc n t r c < 6 * (n * n).
Proof. intros. unfold enc. pose proof (within_lt r c n n). nia. Qed.
