(** Bounding boxes, rectangles, list helpers. *)
From Coq Require Import Reals Lra Lia List Bool Psatz.
From Verif.Model Require Import RBase Vec BBox.
From Verif.Spec Require Import BBoxSpec.
From Verif.Proofs Require Import VecP.
Open Scope R_scope.

Lemma V3_eq a b c d e f : a = d -> b = e -> c = f -> V3 a b c = V3 d e f.
Proof. intros -> -> ->. reflexivity. Qed.

(** ** minima of lists *)
Lemma lmin_spec l : forall a, lmin a l <= a /\ (forall x, In x l -> lmin a l <= x) /\ (lmin a l = a \/ In (lmin a l) l).
Proof.
  unfold lmin. induction l as [|y l IH]; intros a; cbn [fold_left].
  - split; [lra|]. split; [intros x []|left; reflexivity].
  - destruct (IH (Rmin a y)) as (P & Q & S). pose proof (Rmin_l a y). pose proof (Rmin_r a y).
    split; [lra|]. split.
    + intros x [-> | Hx]; [lra|apply Q; exact Hx].
    + destruct S as [S|S]; [|right; right; exact S]. rewrite S.
      unfold Rmin. destruct (Rle_dec a y); [left; reflexivity|right; left; reflexivity].
Qed.
Lemma lmax_spec l : forall a, a <= lmax a l /\ (forall x, In x l -> x <= lmax a l) /\ (lmax a l = a \/ In (lmax a l) l).
Proof.
  unfold lmax. induction l as [|y l IH]; intros a; cbn [fold_left].
  - split; [lra|]. split; [intros x []|left; reflexivity].
  - destruct (IH (Rmax a y)) as (P & Q & S). pose proof (Rmax_l a y). pose proof (Rmax_r a y).
    split; [lra|]. split.
    + intros x [-> | Hx]; [lra|apply Q; exact Hx].
    + destruct S as [S|S]; [|right; right; exact S]. rewrite S.
      unfold Rmax. destruct (Rle_dec a y); [right; left; reflexivity|left; reflexivity].
Qed.
Lemma lmin_in {A} (f : A -> R) p l q : In q (p :: l) -> lmin (f p) (map f l) <= f q.
Proof.
  destruct (lmin_spec (map f l) (f p)) as (P & Q & _). intros [<- | H]; [exact P|apply Q, in_map, H].
Qed.
Lemma lmax_in {A} (f : A -> R) p l q : In q (p :: l) -> f q <= lmax (f p) (map f l).
Proof.
  destruct (lmax_spec (map f l) (f p)) as (P & Q & _). intros [<- | H]; [exact P|apply Q, in_map, H].
Qed.
Lemma lmin_glb {A} (f : A -> R) p l c : (forall q, In q (p :: l) -> c <= f q) -> c <= lmin (f p) (map f l).
Proof.
  intros H. destruct (lmin_spec (map f l) (f p)) as (_ & _ & [E|E]).
  - rewrite E. apply H. left; reflexivity.
  - apply in_map_iff in E as (q & E & Hq). rewrite <- E. apply H. right; exact Hq.
Qed.
Lemma lmax_lub {A} (f : A -> R) p l c : (forall q, In q (p :: l) -> f q <= c) -> lmax (f p) (map f l) <= c.
Proof.
  intros H. destruct (lmax_spec (map f l) (f p)) as (_ & _ & [E|E]).
  - rewrite E. apply H. left; reflexivity.
  - apply in_map_iff in E as (q & E & Hq). rewrite <- E. apply H. right; exact Hq.
Qed.

(** ** C39 *)
Lemma from_points_least l b : bbox_from_points l = Ok b ->
  valid_box b /\ (forall p, In p l -> in_box b p) /\ (forall c, (forall p, In p l -> in_box c p) -> box_le b c).
Proof.
  destruct l as [|p l]; [discriminate|]. intros E. cbn [bbox_from_points] in E. apply Ok_inj in E. subst b.
  assert (K : forall q, In q (p :: l) -> in_box (BBox (lmin (x3 p) (map x3 l)) (lmax (x3 p) (map x3 l))
      (lmin (y3 p) (map y3 l)) (lmax (y3 p) (map y3 l)) (lmin (z3 p) (map z3 l)) (lmax (z3 p) (map z3 l))) q).
  { intros q Hq. unfold in_box. cbn [xmin xmax ymin ymax zmin zmax].
    repeat split; first [apply lmin_in|apply lmax_in]; exact Hq. }
  split; [|split; [exact K|]].
  - destruct (K p (or_introl eq_refl)) as (A & B & C). unfold valid_box. lra.
  - intros c Hc. unfold box_le. cbn [xmin xmax ymin ymax zmin zmax].
    split; [apply lmin_glb|split; [apply lmax_lub|split; [apply lmin_glb|split; [apply lmax_lub|split; [apply lmin_glb|apply lmax_lub]]]]];
      intros q Hq; destruct (Hc q Hq) as (A & B & C); lra.
Qed.
Lemma from_points_err l : (exists b, bbox_from_points l = Ok b) <-> l <> [].
Proof. destruct l; cbn; split; intros H; [destruct H; discriminate|congruence|discriminate|eexists; reflexivity]. Qed.
Lemma rect_from_points_least l b : rect_from_points l = Ok b ->
  valid_rect b /\ (forall p, In p l -> in_rect b p) /\ (forall c, (forall p, In p l -> in_rect c p) -> rect_le b c).
Proof.
  destruct l as [|p l]; [discriminate|]. intros E. cbn [rect_from_points] in E. apply Ok_inj in E. subst b.
  assert (K : forall q, In q (p :: l) -> in_rect (Rect (lmin (x2 p) (map x2 l)) (lmax (x2 p) (map x2 l))
      (lmin (y2 p) (map y2 l)) (lmax (y2 p) (map y2 l))) q).
  { intros q Hq. unfold in_rect. cbn [rxmin rxmax rymin rymax].
    repeat split; first [apply lmin_in|apply lmax_in]; exact Hq. }
  split; [|split; [exact K|]].
  - destruct (K p (or_introl eq_refl)) as (A & B). unfold valid_rect. lra.
  - intros c Hc. unfold rect_le. cbn [rxmin rxmax rymin rymax].
    split; [apply lmin_glb|split; [apply lmax_lub|split; [apply lmin_glb|apply lmax_lub]]];
      intros q Hq; destruct (Hc q Hq) as (A & B); lra.
Qed.
Lemma rect_from_points_err l : (exists b, rect_from_points l = Ok b) <-> l <> [].
Proof. destruct l; cbn; split; intros H; [destruct H; discriminate|congruence|discriminate|eexists; reflexivity]. Qed.
Lemma from_boxes_least l b : from_bounding_boxes l = Ok b ->
  (forall a, In a l -> box_le a b) /\ (forall c, (forall a, In a l -> box_le a c) -> box_le b c).
Proof.
  destruct l as [|p l]; [discriminate|]. intros E. cbn [from_bounding_boxes] in E. apply Ok_inj in E. subst b.
  split.
  - intros q Hq. unfold box_le. cbn [xmin xmax ymin ymax zmin zmax].
    repeat split; first [apply (lmin_in xmin)|apply (lmax_in xmax)|apply (lmin_in ymin)|apply (lmax_in ymax)
      |apply (lmin_in zmin)|apply (lmax_in zmax)]; exact Hq.
  - intros c Hc. unfold box_le. cbn [xmin xmax ymin ymax zmin zmax].
    split; [apply lmin_glb|split; [apply lmax_lub|split; [apply lmin_glb|split; [apply lmax_lub|split; [apply lmin_glb|apply lmax_lub]]]]];
      intros q Hq; destruct (Hc q Hq) as (A & B & C & D & G & F); lra.
Qed.
Lemma from_boxes_err l : (exists b, from_bounding_boxes l = Ok b) <-> l <> [].
Proof. destruct l; cbn; split; intros H; [destruct H; discriminate|congruence|discriminate|eexists; reflexivity]. Qed.
Ltac mm := repeat match goal with
  | |- context [Rmin ?a ?b] => unfold Rmin at 1; destruct (Rle_dec a b)
  | |- context [Rmax ?a ?b] => unfold Rmax at 1; destruct (Rle_dec a b)
  end.
Lemma bbox_add_least a b : box_le a (bbox_add a b) /\ box_le b (bbox_add a b) /\
  (forall c, box_le a c -> box_le b c -> box_le (bbox_add a b) c).
Proof.
  unfold box_le, bbox_add. cbn [xmin xmax ymin ymax zmin zmax].
  split; [|split].
  - repeat split; first [apply Rmin_l|apply Rmax_l].
  - repeat split; first [apply Rmin_r|apply Rmax_r].
  - intros c (A1 & A2 & A3 & A4 & A5 & A6) (B1 & B2 & B3 & B4 & B5 & B6).
    repeat split; first [apply Rmin_glb|apply Rmax_lub]; assumption.
Qed.
Lemma bbox_add_comm a b : bbox_add a b = bbox_add b a.
Proof. unfold bbox_add. f_equal; first [apply Rmin_comm|apply Rmax_comm]. Qed.
Lemma bbox_add_assoc a b c : bbox_add a (bbox_add b c) = bbox_add (bbox_add a b) c.
Proof. unfold bbox_add. cbn [xmin xmax ymin ymax zmin zmax]. f_equal; first [rewrite Rmin_assoc|rewrite Rmax_assoc]; reflexivity. Qed.
Lemma bbox_add_idem a : bbox_add a a = a.
Proof.
  unfold bbox_add. destruct a as [a1 a2 a3 a4 a5 a6]. cbn [xmin xmax ymin ymax zmin zmax].
  rewrite !Rmin_left, !Rmax_left by lra. reflexivity.
Qed.
(** the order on bounds is inclusion of point sets *)
Lemma box_le_incl a b : valid_box a -> (box_le a b <-> forall p, in_box a p -> in_box b p).
Proof.
  unfold valid_box, box_le, in_box. intros (V1 & V2' & V3'). split.
  - intros H p Hp. lra.
  - intros H. pose proof (H (V3 (xmin a) (ymin a) (zmin a))) as H1. pose proof (H (V3 (xmax a) (ymax a) (zmax a))) as H2.
    cbn [x3 y3 z3] in *. lra.
Qed.
Lemma rect_le_incl a b : valid_rect a -> (rect_le a b <-> forall p, in_rect a p -> in_rect b p).
Proof.
  unfold valid_rect, rect_le, in_rect. intros (V1 & V2'). split.
  - intros H p Hp. lra.
  - intros H. pose proof (H (V2 (rxmin a) (rymin a))) as H1. pose proof (H (V2 (rxmax a) (rymax a))) as H2.
    cbn [x2 y2] in *. lra.
Qed.
Lemma from_points_corners b : valid_box b -> bbox_from_points (bbox_points b) = Ok b.
Proof.
  intros (A & B & C). unfold bbox_points, bbox_from_points, lmin, lmax. cbn [map fold_left x3 y3 z3].
  destruct b as [a1 a2 a3 a4 a5 a6]. cbn [xmin xmax ymin ymax zmin zmax] in *.
  pose proof (Rmin_left a1 a2 A) as M1. pose proof (Rmin_left a3 a4 B) as M2. pose proof (Rmin_left a5 a6 C) as M3.
  pose proof (Rmax_right a1 a2 A) as N1. pose proof (Rmax_right a3 a4 B) as N2. pose proof (Rmax_right a5 a6 C) as N3.
  assert (I : forall x, Rmin x x = x) by (intros; apply Rmin_left; lra).
  assert (J : forall x, Rmax x x = x) by (intros; apply Rmax_left; lra).
  assert (N1' : Rmax a2 a1 = a2) by (rewrite Rmax_comm; exact N1).
  assert (N2' : Rmax a4 a3 = a4) by (rewrite Rmax_comm; exact N2).
  assert (N3' : Rmax a6 a5 = a6) by (rewrite Rmax_comm; exact N3).
  repeat rewrite ?I, ?J, ?M1, ?M2, ?M3, ?N1, ?N2, ?N3, ?N1', ?N2', ?N3'. reflexivity.
Qed.

(** ** C40: distance *)
Definition gap (alo ahi blo bhi : R) : R := Rmax (Rmax (blo - ahi) (alo - bhi)) 0.
Lemma gap_spec alo ahi blo bhi : alo <= ahi -> blo <= bhi ->
  0 <= gap alo ahi blo bhi /\
  (exists s t, alo <= s <= ahi /\ blo <= t <= bhi /\ (s - t) * (s - t) = gap alo ahi blo bhi ^ 2) /\
  (forall s t, alo <= s <= ahi -> blo <= t <= bhi -> gap alo ahi blo bhi ^ 2 <= (s - t) * (s - t)).
Proof.
  intros Ha Hb. unfold gap.
  assert (G0 : 0 <= Rmax (Rmax (blo - ahi) (alo - bhi)) 0) by apply Rmax_r.
  split; [exact G0|].
  destruct (Rle_dec blo ahi) as [L1|L1]; [destruct (Rle_dec alo bhi) as [L2|L2]|].
  - rewrite (Rmax_right _ 0) by (apply Rmax_lub; lra). split.
    + exists (Rmax alo blo), (Rmax alo blo).
      assert (P1 := Rmax_l alo blo). assert (P2 := Rmax_r alo blo).
      assert (P3 : Rmax alo blo <= ahi) by (apply Rmax_lub; lra).
      assert (P4 : Rmax alo blo <= bhi) by (apply Rmax_lub; lra).
      split; [lra|split; [lra|ring]].
    + intros s t _ _. replace (0 ^ 2) with 0 by ring. apply Rle_0_sqr.
  - assert (E : Rmax (Rmax (blo - ahi) (alo - bhi)) 0 = alo - bhi).
    { rewrite (Rmax_right (blo - ahi)) by lra. apply Rmax_left. lra. }
    rewrite E. split.
    + exists alo, bhi. split; [lra|split; [lra|ring]].
    + intros s t Hs Ht. replace ((alo - bhi) ^ 2) with ((alo - bhi) * (alo - bhi)) by ring. apply Rmult_le_compat; lra.
  - assert (E : Rmax (Rmax (blo - ahi) (alo - bhi)) 0 = blo - ahi).
    { rewrite (Rmax_left (blo - ahi)) by lra. apply Rmax_left. lra. }
    rewrite E. split.
    + exists ahi, blo. split; [lra|split; [lra|ring]].
    + intros s t Hs Ht. replace ((blo - ahi) ^ 2) with ((blo - ahi) * (blo - ahi)) by ring.
      replace ((s - t) * (s - t)) with ((t - s) * (t - s)) by ring. apply Rmult_le_compat; lra.
Qed.
Lemma gap_sym a b c d : gap a b c d = gap c d a b.
Proof. unfold gap. rewrite (Rmax_comm (c - b)). reflexivity. Qed.
Lemma gap_zero a b c d : gap a b c d = 0 <-> c <= b /\ a <= d.
Proof. unfold gap, Rmax. repeat destruct (Rle_dec _ _); lra. Qed.
(** the swapped computation of the code *)
Lemma gap_left alo ahi blo bhi : alo <= ahi -> blo <= bhi -> alo <= blo -> Rmax (blo - ahi) 0 = gap alo ahi blo bhi.
Proof. intros. unfold gap, Rmax. repeat destruct (Rle_dec _ _); lra. Qed.

Definition true_dist (a b : bbox) : R :=
  sqrt (gap (xmin a) (xmax a) (xmin b) (xmax b) ^ 2 + gap (ymin a) (ymax a) (ymin b) (ymax b) ^ 2
        + gap (zmin a) (zmax a) (zmin b) (zmax b) ^ 2).
Lemma true_dist_min a b : valid_box a -> valid_box b -> min_dist point_distance3 (in_box a) (in_box b) (true_dist a b).
Proof.
  intros (A1 & A2 & A3) (B1 & B2 & B3).
  destruct (gap_spec _ _ _ _ A1 B1) as (X0 & (sx & tx & X1 & X2 & X3) & X4).
  destruct (gap_spec _ _ _ _ A2 B2) as (Y0 & (sy & ty & Y1 & Y2 & Y3) & Y4).
  destruct (gap_spec _ _ _ _ A3 B3) as (Z0 & (sz & tz & Z1 & Z2 & Z3) & Z4).
  split.
  - exists (V3 sx sy sz), (V3 tx ty tz). unfold in_box. cbn [x3 y3 z3].
    split; [tauto|split; [tauto|]]. unfold point_distance3, norm3, sub3, true_dist. cbn [x3 y3 z3].
    f_equal. lra.
  - intros p q (P1 & P2 & P3) (Q1 & Q2 & Q3). unfold point_distance3, norm3, sub3, true_dist. cbn [x3 y3 z3].
    apply sqrt_le_1_alt.
    pose proof (X4 (x3 p) (x3 q) P1 Q1). pose proof (Y4 (y3 p) (y3 q) P2 Q2). pose proof (Z4 (z3 p) (z3 q) P3 Q3). lra.
Qed.
Lemma distance_to_bbox_eq a b : valid_box a -> valid_box b ->
  distance_to_bbox a b = if bbox_is_intersecting a b (/ 10 ^ 6) then 0 else true_dist a b.
Proof.
  intros (A1 & A2 & A3) (B1 & B2 & B3). unfold distance_to_bbox. destruct (bbox_is_intersecting _ _ _); [reflexivity|].
  unfold true_dist.
  destruct (Rltb (xmin b) (xmin a)) eqn:EX; rb;
    (destruct (Rltb (ymin _) (ymin _)) eqn:EY; rb;
      (destruct (Rltb (zmin _) (zmin _)) eqn:EZ; rb));
  f_equal; f_equal; [f_equal| |f_equal| |f_equal| |f_equal| |f_equal| |f_equal| |f_equal| |f_equal|]; f_equal;
  first [apply gap_left; lra|rewrite gap_sym; apply gap_left; lra].
Qed.
Lemma bbox_is_intersecting_spec a b tol : bbox_is_intersecting a b tol = true <->
  (xmin b - xmax a <= 2 * tol /\ xmin a - xmax b <= 2 * tol) /\ (ymin b - ymax a <= 2 * tol /\ ymin a - ymax b <= 2 * tol) /\
  (zmin b - zmax a <= 2 * tol /\ zmin a - zmax b <= 2 * tol).
Proof.
  unfold bbox_is_intersecting. rewrite negb_true_iff, !orb_false_iff, !Rltb_false.
  split; intros H; repeat split; try lra; try (repeat destruct H as [H ?]; lra).
Qed.
Lemma bbox_is_intersecting_sym a b tol : bbox_is_intersecting a b tol = bbox_is_intersecting b a tol.
Proof. apply Bool.eq_iff_eq_true. rewrite !bbox_is_intersecting_spec. tauto. Qed.
Lemma true_dist_sym a b : true_dist a b = true_dist b a.
Proof. unfold true_dist. rewrite (gap_sym (xmin a)), (gap_sym (ymin a)), (gap_sym (zmin a)). reflexivity. Qed.
Lemma distance_to_bbox_sym a b : valid_box a -> valid_box b -> distance_to_bbox a b = distance_to_bbox b a.
Proof. intros A B. rewrite !distance_to_bbox_eq by assumption. rewrite bbox_is_intersecting_sym, true_dist_sym. reflexivity. Qed.
Lemma eps6_pos : 0 < / 10 ^ 6. Proof. apply Rinv_0_lt_compat; lra. Qed.
(** The distance is the minimum distance of the point sets, or 0 when that minimum is at most 2*sqrt(3)*1e-6. *)
Lemma distance_to_bbox_min a b : valid_box a -> valid_box b ->
  exists d, min_dist point_distance3 (in_box a) (in_box b) d /\
  ((bbox_is_intersecting a b (/ 10 ^ 6) = false /\ distance_to_bbox a b = d) \/
   (bbox_is_intersecting a b (/ 10 ^ 6) = true /\ distance_to_bbox a b = 0 /\ 0 <= d <= 4 / 10 ^ 6)).
Proof.
  intros A B. exists (true_dist a b). split; [apply true_dist_min; assumption|].
  rewrite distance_to_bbox_eq by assumption.
  destruct (bbox_is_intersecting a b (/ 10 ^ 6)) eqn:E; [right|left; split; reflexivity].
  split; [reflexivity|]. split; [reflexivity|]. split; [apply sqrt_pos|].
  apply bbox_is_intersecting_spec in E. pose proof eps6_pos as P.
  assert (G : forall a b c d, c - b <= 2 * / 10 ^ 6 -> a - d <= 2 * / 10 ^ 6 -> gap a b c d ^ 2 <= (2 * / 10 ^ 6) ^ 2).
  { intros a0 b0 c0 d0 H1 H2. unfold gap. apply pow_incr. split; [apply Rmax_r|]. apply Rmax_lub; [apply Rmax_lub; lra|lra]. }
  unfold true_dist. replace (4 / 10 ^ 6) with (sqrt ((4 / 10 ^ 6) ^ 2)).
  2:{ rewrite <- Rsqr_pow2. apply sqrt_Rsqr. unfold Rdiv. lra. }
  apply sqrt_le_1_alt.
  destruct E as ((E1 & E2) & (E3 & E4) & E5 & E6).
  pose proof (G _ _ _ _ E1 E2). pose proof (G _ _ _ _ E3 E4). pose proof (G _ _ _ _ E5 E6).
  unfold Rdiv. nra.
Qed.
(** distance 0 whenever the boxes share a point *)
Lemma distance_to_bbox_meet a b p : in_box a p -> in_box b p -> distance_to_bbox a b = 0.
Proof.
  intros (A1 & A2 & A3) (B1 & B2 & B3). unfold distance_to_bbox.
  assert (E : bbox_is_intersecting a b (/ 10 ^ 6) = true).
  { apply bbox_is_intersecting_spec. pose proof eps6_pos. lra. }
  rewrite E. reflexivity.
Qed.
Lemma distance_to_bbox_gap_wrong : exists a b, valid_box a /\ valid_box b /\ (forall p, ~ (in_box a p /\ in_box b p)) /\ distance_to_bbox a b = 0.
Proof.
  exists (BBox 0 1 0 1 0 1), (BBox (1 + / 10 ^ 6) 2 0 1 0 1). pose proof eps6_pos as P.
  assert (P2 : / 10 ^ 6 < 1) by (apply Rmult_lt_reg_l with (10 ^ 6); [lra|]; rewrite Rinv_r; lra).
  unfold valid_box, in_box. cbn [xmin xmax ymin ymax zmin zmax].
  split; [lra|split; [lra|split]].
  - intros p. lra.
  - unfold distance_to_bbox. assert (E : bbox_is_intersecting (BBox 0 1 0 1 0 1) (BBox (1 + / 10 ^ 6) 2 0 1 0 1) (/ 10 ^ 6) = true).
    { apply bbox_is_intersecting_spec. cbn [xmin xmax ymin ymax zmin zmax]. lra. }
    rewrite E. reflexivity.
Qed.
Lemma rect_is_intersecting_spec a b : rect_is_intersecting a b = true <->
  (rxmin a < rxmax b /\ rxmin b < rxmax a) /\ (rymin a < rymax b /\ rymin b < rymax a).
Proof. unfold rect_is_intersecting. rewrite !andb_true_iff, !Rltb_spec. tauto. Qed.
Lemma rect_is_intersecting_sym a b : rect_is_intersecting a b = rect_is_intersecting b a.
Proof. apply Bool.eq_iff_eq_true. rewrite !rect_is_intersecting_spec. tauto. Qed.
Definition true_rdist (a b : rect) : R :=
  sqrt (gap (rxmin a) (rxmax a) (rxmin b) (rxmax b) ^ 2 + gap (rymin a) (rymax a) (rymin b) (rymax b) ^ 2).
Lemma rect_distance_eq a b : valid_rect a -> valid_rect b -> rect_distance a b = true_rdist a b.
Proof.
  intros (A1 & A2) (B1 & B2). unfold rect_distance. destruct (rect_is_intersecting a b) eqn:E.
  - apply rect_is_intersecting_spec in E. unfold true_rdist.
    rewrite (proj2 (gap_zero (rxmin a) _ _ _)) by lra. rewrite (proj2 (gap_zero (rymin a) _ _ _)) by lra.
    replace (0 ^ 2 + 0 ^ 2) with 0 by ring. symmetry. apply sqrt_0.
  - unfold true_rdist.
    destruct (Rltb (rxmin b) (rxmin a)) eqn:EX; rb; (destruct (Rltb (rymin _) (rymin _)) eqn:EY; rb);
    f_equal; f_equal; f_equal; first [apply gap_left; lra|rewrite gap_sym; apply gap_left; lra].
Qed.
Lemma rect_distance_min a b : valid_rect a -> valid_rect b -> min_dist point_distance2 (in_rect a) (in_rect b) (rect_distance a b).
Proof.
  intros A B. rewrite rect_distance_eq by assumption. destruct A as (A1 & A2). destruct B as (B1 & B2).
  destruct (gap_spec _ _ _ _ A1 B1) as (X0 & (sx & tx & X1 & X2 & X3) & X4).
  destruct (gap_spec _ _ _ _ A2 B2) as (Y0 & (sy & ty & Y1 & Y2 & Y3) & Y4).
  split.
  - exists (V2 sx sy), (V2 tx ty). unfold in_rect. cbn [x2 y2].
    split; [tauto|split; [tauto|]]. unfold point_distance2, norm2, sub2, true_rdist. cbn [x2 y2]. f_equal. lra.
  - intros p q (P1 & P2) (Q1 & Q2). unfold point_distance2, norm2, sub2, true_rdist. cbn [x2 y2].
    apply sqrt_le_1_alt. pose proof (X4 (x2 p) (x2 q) P1 Q1). pose proof (Y4 (y2 p) (y2 q) P2 Q2). lra.
Qed.
Lemma rect_distance_sym a b : valid_rect a -> valid_rect b -> rect_distance a b = rect_distance b a.
Proof.
  intros A B. rewrite !rect_distance_eq by assumption. unfold true_rdist.
  rewrite (gap_sym (rxmin a)), (gap_sym (rymin a)). reflexivity.
Qed.
