From Coq Require Import List Arith Bool Reals Lra Lia Psatz.
From Verif.Model Require Import RBase Vec Geometry Curves Edges PolyTurn.
From Verif.Spec Require Import AngleSpec PolyTurnSpec.
From Verif.Proofs Require Import VecP GeometryP ParamSurfP ParamSurfP6 PolyTurnP.
Import ListNotations.
Open Scope R_scope.

(** convex polygons *)
Lemma cross_next pts i : cross2 (side pts i) (sub2 (corner pts (S (S i))) (corner pts i)) = turn pts i.
Proof. unfold turn, side, cross2, sub2. cbn [x2 y2]. ring. Qed.
Lemma all_flat pts : no_repeat pts -> (forall i, turn pts i = 0) -> forall j, cross2 (side pts 0) (sub2 (corner pts j) (corner pts 0)) = 0.
Proof.
  intros NR T. assert (P : forall j, cross2 (side pts 0) (side pts j) = 0).
  { induction j as [|j IH]; [unfold cross2; ring|]. pose proof (T j) as H. unfold turn in H. pose proof (side_ne pts j NR) as N. revert IH H N.
    generalize (side pts 0) (side pts j) (side pts (S j)). intros [a b] [c d] [e f]. unfold cross2. cbn [x2 y2]. intros H1 H2 N.
    assert (K1 : (a * f - b * e) * c = 0). { replace ((a * f - b * e) * c) with (a * (c * f - d * e) + (a * d - b * c) * e) by ring. rewrite H1, H2. ring. }
    assert (K2 : (a * f - b * e) * d = 0). { replace ((a * f - b * e) * d) with (b * (c * f - d * e) + (a * d - b * c) * f) by ring. rewrite H1, H2. ring. }
    destruct (Req_dec (a * f - b * e) 0) as [Z|Z]; [exact Z|]. exfalso. apply N. apply Rmult_integral in K1 as [K1|K1]; [contradiction|]. apply Rmult_integral in K2 as [K2|K2]; [contradiction|]. subst. reflexivity. }
  induction j as [|j IH]; [unfold cross2, sub2; cbn [x2 y2]; ring|]. pose proof (P j) as Q. revert IH Q. unfold side at 3. unfold cross2, sub2. cbn [x2 y2]. intros. lra.
Qed.
Lemma strict_turn pts : no_repeat pts -> not_flat pts -> exists i, turn pts i <> 0 .
Proof.
  intros NR NF. (* finitely many turns *)
  assert (D : forall n, (exists i, turn pts i <> 0) \/ forall i, (i < n)%nat -> turn pts i = 0).
  { induction n as [|n [IH|IH]]; [right; lia|left; exact IH|]. destruct (Req_dec (turn pts n) 0) as [Z|N]; [|left; exists n; exact N]. right. intros i H. destruct (Nat.eq_dec i n) as [->|]; [exact Z|apply IH; lia]. }
  destruct (D (length pts)) as [G|G]; [exact G|]. exfalso.
  assert (A : forall i, turn pts i = 0).
  { intros i. destruct pts as [|p pts]; [exfalso; apply (NR 0%nat); reflexivity|]. rewrite <- turn_mod. apply G. apply Nat.mod_upper_bound. cbn. lia. }
  destruct (NF 0%nat) as (j & J). apply J. apply all_flat; assumption.
Qed.
Lemma back_flat (a b p q r : vec2) : a <> V2 0 0 -> cross2 a b = 0 -> dot2 a b < 0 -> sub2 q p = a -> exists c, c < 0 /\ forall r, cross2 b (sub2 r q) = c * cross2 a (sub2 r p).
Proof.
  intros N C D E. assert (N2 : 0 < dot2 a a). { rewrite <- norm2_sq. pose proof (norm_pos_ne a N). nra. }
  exists (dot2 a b / dot2 a a). split; [apply Rmult_lt_reg_r with (dot2 a a); [exact N2|]; unfold Rdiv; rewrite Rmult_assoc, Rinv_l, Rmult_1_r, Rmult_0_l by lra; exact D|].
  intros z. apply Rmult_eq_reg_r with (dot2 a a); [|lra]. replace (dot2 a b / dot2 a a * cross2 a (sub2 z p) * dot2 a a) with (dot2 a b * cross2 a (sub2 z p)) by (field; lra).
  assert (Ez : sub2 z q = sub2 (sub2 z p) a) by (subst a; unfold sub2; cbn; f_equal; ring). rewrite Ez. revert C. generalize (sub2 z p). intros [u v]. destruct a as [a1 a2], b as [b1 b2]. unfold cross2, dot2, sub2. cbn [x2 y2]. intros C.
  assert (X1 : b1 * (a1*a1+a2*a2) = (a1*b1+a2*b2) * a1). { replace (b1 * (a1*a1+a2*a2)) with ((a1*b1+a2*b2) * a1 - a2 * (a1*b2-a2*b1)) by ring. rewrite C. ring. }
  assert (X2 : b2 * (a1*a1+a2*a2) = (a1*b1+a2*b2) * a2). { replace (b2 * (a1*a1+a2*a2)) with ((a1*b1+a2*b2) * a2 + a1 * (a1*b2-a2*b1)) by ring. rewrite C. ring. }
  transitivity (b1 * (a1*a1+a2*a2) * (v - a2) - b2 * (a1*a1+a2*a2) * (u - a1)); [ring|]. rewrite X1, X2. ring.
Qed.
Lemma convex_turns pts : no_repeat pts -> not_flat pts -> convex_trigo pts -> (forall i, 0 <= turn pts i /\ ~ goes_back pts i) /\ exists i, 0 < turn pts i.
Proof.
  intros NR NF C. assert (T : forall i, 0 <= turn pts i) by (intros i; rewrite <- cross_next; apply C). split.
  - intros i. split; [apply T|]. intros [Z D]. destruct (back_flat (side pts i) (side pts (S i)) (corner pts i) (corner pts (S i)) O2D (side_ne pts i NR) Z D eq_refl) as (c & Hc & K).
    destruct (NF i) as (j & J). pose proof (C i j). pose proof (C (S i) j) as H2. rewrite K in H2. nra.
  - destruct (strict_turn pts NR NF) as (i & I0). exists i. pose proof (T i). lra.
Qed.
Lemma convex_turns_clockwise pts : no_repeat pts -> not_flat pts -> convex_clockwise pts -> forall i, turn pts i <= 0 /\ ~ goes_back pts i.
Proof.
  intros NR NF C i. split; [rewrite <- cross_next; apply C|]. intros [Z D]. destruct (back_flat (side pts i) (side pts (S i)) (corner pts i) (corner pts (S i)) O2D (side_ne pts i NR) Z D eq_refl) as (c & Hc & K).
  destruct (NF i) as (j & J). pose proof (C i j). pose proof (C (S i) j) as H2. rewrite K in H2. nra.
Qed.
Lemma trigo_convex pts : no_repeat pts -> not_flat pts -> (3 <= length pts)%nat -> (convex_trigo pts -> is_trigo pts = Ok true) /\ (convex_clockwise pts -> is_trigo pts = Ok false).
Proof.
  intros NR NF L. split; intros C.
  - destruct (convex_turns pts NR NF C). apply trigo_left; assumption.
  - apply trigo_right; [assumption..|]. apply convex_turns_clockwise; assumption.
Qed.

(** the clockwise angle *)
Lemma cw_cases v w : v <> V2 0 0 -> w <> V2 0 0 -> 0 < clockwise_angle v w <= 2 * PI /\
  (clockwise_angle v w < PI <-> cross2 v w < 0) /\ (PI < clockwise_angle v w < 2 * PI <-> 0 < cross2 v w).
Proof.
  intros V W. destruct (clockwise_angle_spec v w V W) as [B (c & C & Ex & Ey)]. split; [exact B|]. set (t := clockwise_angle v w) in *.
  assert (X : cross2 v w = - (c * (sin t * dot2 v v))). { unfold cross2, dot2. rewrite Ex, Ey. unfold rotate_clockwise. cbn [x2 y2]. ring. }
  assert (N2 : 0 < dot2 v v). { rewrite <- norm2_sq. pose proof (norm_pos_ne v V). nra. }
  assert (KP : forall s, 0 < s -> 0 < c * (s * dot2 v v)) by (intros; repeat apply Rmult_lt_0_compat; assumption).
  assert (SN : (t < PI /\ 0 < sin t) \/ (PI < t < 2 * PI /\ sin t < 0) \/ ((t = PI \/ t = 2 * PI) /\ sin t = 0)).
  { destruct (Rtotal_order t PI) as [H|[H|H]]; [left; split; [exact H|apply sin_gt_0; lra]|right; right; split; [left; exact H|rewrite H; apply sin_PI]|].
    destruct (Rle_lt_or_eq_dec _ _ (proj2 B)) as [H2|H2]; [right; left; split; [lra|apply sin_lt_0; lra]|right; right; split; [right; exact H2|rewrite H2; apply sin_2PI]]. }
  rewrite X. destruct SN as [[A S1]|[[A S1]|[A S1]]].
  - pose proof (KP _ S1). split; split; intros; lra.
  - pose proof (KP (- sin t) ltac:(lra)) as K. replace (c * (- sin t * dot2 v v)) with (- (c * (sin t * dot2 v v))) in K by ring. split; split; intros; lra.
  - rewrite S1. replace (c * (0 * dot2 v v)) with 0 by ring. destruct A; split; split; intros; lra.
Qed.
Lemma bad_turn_spec b s1 s2 : dir2 s1 <> V2 0 0 -> dir2 s2 <> V2 0 0 -> bad_turn b (s1, s2) = true <-> (if b then cross2 (dir2 s1) (dir2 s2) < 0 else 0 < cross2 (dir2 s1) (dir2 s2)).
Proof.
  intros D1 D2. destruct (cw_cases _ _ D1 D2) as (B & L & G). unfold bad_turn. cbn [fst snd]. set (t := clockwise_angle _ _) in *. destruct b.
  - rewrite andb_true_iff, Rltb_spec, negb_true_iff, Reqb_false. rewrite <- L. split; [tauto|]. intros; split; [assumption|lra].
  - rewrite andb_true_iff, Rltb_spec, negb_true_iff, Reqb_false. rewrite <- G. split; intros; [destruct H; split; [assumption|]|destruct H; split; [assumption|]]; lra.
Qed.
Lemma is_convex_spec pts : no_repeat pts -> (3 <= length pts)%nat -> exists trigo convex, is_trigo pts = Ok trigo /\ is_convex pts = Ok convex /\
  (convex = true <-> forall i, if trigo then 0 <= turn pts i else turn pts i <= 0).
Proof.
  intros NR L. exists (Rltb 0 (sumR (map (fun i => angle_of (side pts i) (side pts (S i))) (seq 0 (length pts))))). set (t := Rltb _ _).
  exists (negb (existsb (bad_turn t) (map (fun i => (seg pts i, seg pts (S i))) (seq 0 (length pts))))). split; [apply is_trigo_eq; assumption|]. split.
  - unfold is_convex. destruct (pairs_eq pts NR ltac:(lia)) as (next & F & E). rewrite F. cbn [bind]. rewrite (is_trigo_eq _ NR L). cbn [bind]. fold t. rewrite E. reflexivity.
  - rewrite negb_true_iff. split.
    + intros H i. assert (B : bad_turn t (seg pts (i mod length pts), seg pts (S (i mod length pts))) = false).
      { destruct (bad_turn t _) eqn:Q; [|reflexivity]. rewrite <- H. symmetry. apply existsb_exists. eexists. split; [|exact Q]. apply in_map_iff. eexists. split; [reflexivity|]. apply in_seq. split; [lia|]. apply Nat.mod_upper_bound. lia. }
      pose proof (turn_mod pts i) as TM. set (k := (i mod length pts)%nat) in *. pose proof (bad_turn_spec t (seg pts k) (seg pts (S k)) (side_ne pts k NR) (side_ne pts (S k) NR)) as BS.
      rewrite B in BS. rewrite <- TM. change (cross2 (dir2 (seg pts k)) (dir2 (seg pts (S k)))) with (turn pts k) in BS. destruct t; apply Rnot_lt_le; intros X; apply BS in X; discriminate X.
    + intros H. destruct (existsb _ _) eqn:Q; [|reflexivity]. apply existsb_exists in Q as (p & P & B). apply in_map_iff in P as (k & <- & _). exfalso. apply bad_turn_spec in B; [|apply (side_ne pts k NR)|apply (side_ne pts (S k) NR)].
      change (cross2 (dir2 (seg pts k)) (dir2 (seg pts (S k)))) with (turn pts k) in B. specialize (H k). destruct t; lra.
Qed.
Lemma is_convex_convex pts : no_repeat pts -> not_flat pts -> (3 <= length pts)%nat -> convex_trigo pts \/ convex_clockwise pts -> is_convex pts = Ok true.
Proof.
  intros NR NF L C. destruct (is_convex_spec pts NR L) as (t & c & T & -> & S1). f_equal. apply S1. intros i. destruct (trigo_convex pts NR NF L) as [A B]. destruct C as [C|C].
  - rewrite (A C) in T. injection T as <-. rewrite <- cross_next. apply C.
  - rewrite (B C) in T. injection T as <-. rewrite <- cross_next. apply C.
Qed.
Lemma is_convex_mixed pts i j : no_repeat pts -> (3 <= length pts)%nat -> 0 < turn pts i -> turn pts j < 0 -> is_convex pts = Ok false.
Proof.
  intros NR L A B. destruct (is_convex_spec pts NR L) as (t & c & T & -> & S1). f_equal. destruct c; [|reflexivity]. exfalso.
  pose proof (proj1 S1 eq_refl) as H. destruct t; [specialize (H j)|specialize (H i)]; lra.
Qed.

(** moving a polygon changes nothing *)
Lemma segments_map f pts : (forall p q, f p = f q -> p = q) -> line_segments (map f pts) = map (fun s => (f (fst s), f (snd s))) (line_segments pts).
Proof.
  intros I. unfold line_segments. destruct pts as [|p [|q rest]]; [reflexivity..|]. cbn [map]. change (f q :: map f rest) with (map f (q :: rest)). change (f p :: map f (q :: rest)) with (map f (p :: q :: rest)).
  change [f p] with (map f [p]). rewrite <- map_app. generalize (p :: q :: rest) as l, ((q :: rest) ++ [p]) as m. induction l as [|a l IH]; intros m; [reflexivity|]. destruct m as [|b m]; [reflexivity|].
  cbn [map combine filter fst snd]. assert (E : eqb2 (f a) (f b) = eqb2 a b). { destruct (eqb2 a b) eqn:Q; [apply eqb2_iff in Q; subst; apply eqb2_iff; reflexivity|]. destruct (eqb2 (f a) (f b)) eqn:Q2; [|reflexivity]. apply eqb2_iff, I, eqb2_iff in Q2. congruence. }
  rewrite E. destruct (eqb2 a b); cbn [negb map]; rewrite IH; reflexivity.
Qed.
Lemma trigo_map f pts : (forall p q, f p = f q -> p = q) -> (forall s1 s2, turn_angle (f (fst s1), f (snd s1)) (f (fst s2), f (snd s2)) = turn_angle s1 s2) -> is_trigo (map f pts) = is_trigo pts.
Proof.
  intros I T. unfold is_trigo. rewrite map_length. destruct (length pts <? 3)%nat; [reflexivity|]. rewrite (segments_map f pts I). generalize (line_segments pts). intros l.
  set (g := fun s : vec2 * vec2 => (f (fst s), f (snd s))). destruct l as [|s l]; [reflexivity|]. cbn [map followers bind].
  change (g s :: map g l) with (map g (s :: l)). change [g s] with (map g [s]). rewrite <- map_app.
  assert (E : forall a b acc, sum_angles acc (combine (map g a) (map g b)) = sum_angles acc (combine a b)).
  { induction a as [|x a IH]; intros b acc; [reflexivity|]. destruct b as [|y b]; [reflexivity|]. cbn [map combine sum_angles fst snd]. unfold g at 1 2. rewrite T. destruct (turn_angle x y); cbn [bind]; [apply IH|reflexivity]. }
  rewrite E. reflexivity.
Qed.
Lemma trigo_translation pts v : is_trigo (map (fun p => translation2 p v) pts) = is_trigo pts.
Proof.
  apply trigo_map.
  - intros [a b] [c d] E. unfold translation2 in E. cbn in E. injection E as E1 E2. f_equal; lra.
  - intros s1 s2. unfold turn_angle. assert (E : forall s, dir2 (translation2 (fst s) v, translation2 (snd s) v) = dir2 s) by (intros [[a b] [c d]]; unfold dir2, sub2, translation2; cbn; f_equal; ring).
    rewrite !E. reflexivity.
Qed.
Lemma unit_rot d c s : c * c + s * s = 1 -> unit_vector2 (V2 (c * x2 d - s * y2 d) (s * x2 d + c * y2 d)) = do u <- unit_vector2 d; Ok (V2 (c * x2 u - s * y2 u) (s * x2 u + c * y2 u)).
Proof.
  intros H. assert (N : norm2 (V2 (c * x2 d - s * y2 d) (s * x2 d + c * y2 d)) = norm2 d).
  { unfold norm2. f_equal. cbn [x2 y2]. transitivity ((c * c + s * s) * (x2 d * x2 d + y2 d * y2 d)); [ring|]. rewrite H. ring. }
  unfold unit_vector2. rewrite N. destruct (Reqb (norm2 d) 0) eqn:E; [reflexivity|]. apply Reqb_false in E. cbn [bind x2 y2]. f_equal. f_equal; field; exact E.
Qed.
Lemma trigo_rotation pts center a : is_trigo (map (fun p => rotation2 p center a) pts) = is_trigo pts.
Proof.
  assert (H : cos a * cos a + sin a * sin a = 1) by (pose proof (sin2_cos2 a) as Q; unfold Rsqr in Q; lra).
  apply trigo_map.
  - intros [p1 p2] [q1 q2] E. unfold rotation2, sub2 in E. cbn in E. injection E as E1 E2. set (c := cos a) in *. set (s := sin a) in *. clearbody c s.
    assert (A : c * (p1 - q1) = s * (p2 - q2)) by lra. assert (B : c * (p2 - q2) = - (s * (p1 - q1))) by lra.
    assert (X : (c * c + s * s) * (p1 - q1) = 0). { replace ((c * c + s * s) * (p1 - q1)) with (c * (c * (p1 - q1)) + s * (s * (p1 - q1))) by ring. rewrite A. replace (s * (p1 - q1)) with (- (c * (p2 - q2))) by lra. ring. }
    assert (Y : (c * c + s * s) * (p2 - q2) = 0). { replace ((c * c + s * s) * (p2 - q2)) with (c * (c * (p2 - q2)) + s * (s * (p2 - q2))) by ring. rewrite B, <- A. ring. }
    rewrite H in X, Y. f_equal; lra.
  - intros s1 s2. unfold turn_angle. set (rot := fun d => V2 (cos a * x2 d - sin a * y2 d) (sin a * x2 d + cos a * y2 d)).
    assert (E : forall s, dir2 (rotation2 (fst s) center a, rotation2 (snd s) center a) = rot (dir2 s)) by (intros [[p q] [r t]]; unfold dir2, sub2, rotation2, rot, sub2; cbn; f_equal; ring).
    rewrite !E. unfold rot at 1 2. rewrite !(unit_rot _ _ _ H). destruct (unit_vector2 (dir2 s2)) as [u|]; [|reflexivity]. cbn [bind]. destruct (unit_vector2 (dir2 s1)) as [w|]; [|reflexivity]. cbn [bind]. f_equal.
    assert (D : forall p q, dot2 (rot p) (rot q) = dot2 p q). { intros p q. unfold dot2, rot. cbn [x2 y2]. transitivity ((cos a * cos a + sin a * sin a) * (x2 p * x2 q + y2 p * y2 q)); [ring|]. rewrite H. ring. }
    assert (NV : normal_vector2 (rot (dir2 s1)) = rot (normal_vector2 (dir2 s1))) by (unfold normal_vector2, rot; cbn [x2 y2]; f_equal; ring).
    f_equal; [rewrite NV; apply D|apply D].
Qed.
