(** Proofs about hyperbolas and parabolas: points, membership, lines. *)
From Coq Require Import Reals Lra Lia List Bool ZArith Psatz.
From Verif.Model Require Import Base RBase Vec Frame Geometry Plane Curves Ellipse HypPara.
From Verif.Spec Require Import VecSpec FrameSpec PlaneSpec CurvesSpec HypParaSpec.
From Verif.Proofs Require Import VecP CurvesP CurvesP4.
Import ListNotations.
Open Scope R_scope.

Lemma point_l2g f q : frame2_point f q = frame2_l2g f q.
Proof. rewrite frame2_l2g_eq. unfold frame2_point, add2, mul2. cbn [x2 y2]. f_equal; ring. Qed.
Lemma sqr_pos a : a <> 0 -> 0 < a ^ 2. Proof. intros H. pose proof (pow2_ge_0 a). assert (a ^ 2 <> 0) by now apply pow_nonzero. lra. Qed.
(** ** Hyperbola *)
Lemma hyp_x_sq a b y : a <> 0 -> b <> 0 -> 0 < hyp_x a b y /\ hyp_x a b y ^ 2 = (y ^ 2 / b ^ 2 + 1) * a ^ 2.
Proof.
  intros Ha Hb. pose proof (sqr_pos a Ha). pose proof (sqr_pos b Hb). assert (0 <= y ^ 2 / b ^ 2) by (apply Rmult_le_pos; [apply pow2_ge_0|apply Rlt_le, Rinv_0_lt_compat; auto]).
  assert (P : 0 < (y ^ 2 / b ^ 2 + 1) * a ^ 2) by (apply Rmult_lt_0_compat; lra). unfold hyp_x. split; [now apply sqrt_lt_R0|]. apply pow2_sqrt. lra.
Qed.
Lemma branch_iff a b x y : a <> 0 -> b <> 0 -> (branch a b (V2 x y) <-> x = hyp_x a b y).
Proof.
  intros Ha Hb. destruct (hyp_x_sq a b y Ha Hb) as (P & Q). pose proof (sqr_pos a Ha). pose proof (sqr_pos b Hb). unfold branch. cbn [x2 y2]. split.
  - intros (X & E). assert (x ^ 2 = hyp_x a b y ^ 2). { rewrite Q. apply (Rmult_eq_reg_r (/ a ^ 2)); [|apply Rinv_neq_0_compat; lra]. change (x ^ 2 * / a ^ 2) with (x ^ 2 / a ^ 2). rewrite Rmult_assoc, Rinv_r by lra. lra. }
    nra.
  - intros ->. split; [exact P|]. rewrite Q. field. lra.
Qed.
Lemma linspace_ends a b n : (2 <= n)%nat -> linspace_n a b n = map (fun i => a + INR i * ((b - a) / INR (n - 1))) (seq 0 n).
Proof. intros H. unfold linspace_n. destruct (Nat.eqb_spec n 1); [lia|reflexivity]. Qed.
(** the values of linspace: n of them, evenly spread from lo to hi *)
Lemma points2_ok h lo hi n : ha h <> 0 -> hb h <> 0 -> lo <> 0 \/ hi <> 0 -> (2 <= n)%nat -> exists l, hyperbola2_points h (Some lo) (Some hi) n = Ok l /\ length l = n /\
  (forall p, In p l -> on_branch2 h p) /\
  forall i, (i < n)%nat -> exists x, nth i l O2D = frame2_point (hf h) (V2 x (lo + INR i * ((hi - lo) / INR (n - 1)))).
Proof.
  intros Ha Hb N Hn. unfold hyperbola2_points, sample_range, nothing.
  assert (E : Reqb lo 0 && Reqb hi 0 = false). { destruct N as [N|N]; [rewrite (proj2 (Reqb_false lo 0) N); reflexivity|rewrite (proj2 (Reqb_false hi 0) N); apply andb_false_r]. }
  rewrite E. cbn [bind]. eexists. split; [reflexivity|]. rewrite linspace_ends, map_map by auto. split; [now rewrite map_length, seq_length|]. split.
  - intros p Hp. apply in_map_iff in Hp as (i & <- & _). eexists. split; [|symmetry; apply point_l2g]. now apply branch_iff.
  - intros i Hi. pose (g := fun i => frame2_l2g (hf h) (V2 (hyp_x (ha h) (hb h) (lo + INR i * ((hi - lo) / INR (n - 1)))) (lo + INR i * ((hi - lo) / INR (n - 1))))). exists (hyp_x (ha h) (hb h) (lo + INR i * ((hi - lo) / INR (n - 1)))). change (nth i (map g (seq 0 n)) O2D = frame2_point (hf h) (V2 (hyp_x (ha h) (hb h) (lo + INR i * ((hi - lo) / INR (n - 1)))) (lo + INR i * ((hi - lo) / INR (n - 1))))).
    rewrite (nth_indep _ O2D (g 0%nat)) by (rewrite map_length, seq_length; auto).
    rewrite map_nth, seq_nth by auto. unfold g. cbn [Nat.add]. symmetry. apply point_l2g.
Qed.
Lemma points2_default h n : ha h <> 0 -> hb h <> 0 -> exists l, hyperbola2_points h None None n = Ok l /\ length l = n /\ (forall p, In p l -> on_branch2 h p).
Proof.
  intros Ha Hb. unfold hyperbola2_points, sample_range. cbn [nothing andb bind]. eexists. split; [reflexivity|]. split; [unfold linspace_n; now rewrite !map_length, seq_length|].
  intros p Hp. apply in_map_iff in Hp as (y & <- & _). eexists. split; [|symmetry; apply point_l2g]. now apply branch_iff.
Qed.
Lemma points2_one_bound h y n : y <> 0 -> hyperbola2_points h None (Some y) n = Err TypeError /\ hyperbola2_points h (Some y) None n = Err TypeError.
Proof. intros H. unfold hyperbola2_points, sample_range, nothing. rewrite (proj2 (Reqb_false y 0) H). split; reflexivity. Qed.
(** both bounds null: the default range *)
Lemma points2_null h n : hyperbola2_points h (Some 0) (Some 0) n = hyperbola2_points h None None n.
Proof. unfold hyperbola2_points, sample_range, nothing. rewrite (proj2 (Reqb_spec 0 0) eq_refl). reflexivity. Qed.

(** the two definitions of the branch *)
Lemma branch_bifocal h p : orthonormal2 (fb2 (hf h)) -> 0 < ha h -> 0 < hb h -> on_branch2 h p -> bifocal h p.
Proof.
  intros O A B ([x y] & (X & E) & ->). cbn [x2 y2] in X, E. unfold bifocal, focus2. rewrite !point_l2g, !l2g_dist by auto. set (a := ha h) in *. set (b := hb h) in *. clearbody a b.
  set (c := sqrt (a ^ 2 + b ^ 2)). pose proof (sqr_pos a). pose proof (sqr_pos b). assert (C2 : c ^ 2 = a ^ 2 + b ^ 2) by (apply pow2_sqrt; nra). assert (C0 : 0 < c) by (apply sqrt_lt_R0; nra).
  assert (CA : a <= c) by nra.
  assert (Y : y ^ 2 = (x ^ 2 / a ^ 2 - 1) * b ^ 2). { replace (x ^ 2 / a ^ 2 - 1) with (y ^ 2 / b ^ 2) by lra. field. lra. }
  assert (XA : a <= x). { assert (0 <= y ^ 2 / b ^ 2) by (apply Rmult_le_pos; [apply pow2_ge_0|apply Rlt_le, Rinv_0_lt_compat; nra]). assert (x ^ 2 = x ^ 2 / a ^ 2 * a ^ 2) by (field; lra). nra. }
  assert (D : forall s, s = 1 \/ s = -1 -> point_distance2 (V2 x y) (V2 (s * c) 0) = c * x / a - s * a).
  { intros s Hs. assert (T : a <= c * x / a). { apply (Rmult_le_reg_r a); [auto|]. unfold Rdiv. rewrite Rmult_assoc, Rinv_l by lra. nra. }
    assert (P : 0 <= c * x / a - s * a) by (destruct Hs as [-> | ->]; lra).
    unfold point_distance2. rewrite norm2_dot. rewrite <- (sqrt_Rsqr (c * x / a - s * a)) by auto. f_equal. unfold Rsqr, dot2, sub2. cbn [x2 y2].
    replace ((y - 0) * (y - 0)) with (y ^ 2) by ring. rewrite Y. assert (S2 : s * s = 1) by (destruct Hs as [-> | ->]; ring).
    replace ((x - s * c) * (x - s * c)) with (x ^ 2 - 2 * s * c * x + s * s * c ^ 2) by ring. replace ((c * x / a - s * a) * (c * x / a - s * a)) with (c ^ 2 * x ^ 2 / a ^ 2 - 2 * s * c * x + s * s * a ^ 2) by (field; lra).
    rewrite S2, C2. field. lra. }
  rewrite (D (-1)), (D 1) by auto. lra.
Qed.

(** ** lines *)
Lemma line_local f l : orthonormal2 (fb2 f) -> ~ parallel_to_v f l ->
  get_slope (loc2 f (fst l), loc2 f (snd l)) = Some (slope_in f l) /\ get_y_intersection (loc2 f (fst l), loc2 f (snd l)) = Some (height_in f l) /\
  forall p, line2_has l p <-> y2 (loc2 f p) = slope_in f l * x2 (loc2 f p) + height_in f l.
Proof.
  intros O N. unfold parallel_to_v in N. set (du := dot2 (sub2 (snd l) (fst l)) (u2 (fb2 f))) in *. set (dv := dot2 (sub2 (snd l) (fst l)) (v2 (fb2 f))).
  assert (EX : x2 (loc2 f (snd l)) - x2 (loc2 f (fst l)) = du) by (unfold loc2, du; cbn [x2 y2]; destruct f as [o [u v]]; cbn [fb2 org2 u2 v2]; vec; ring).
  assert (EY : y2 (loc2 f (snd l)) - y2 (loc2 f (fst l)) = dv) by (unfold loc2, dv; cbn [x2 y2]; destruct f as [o [u v]]; cbn [fb2 org2 u2 v2]; vec; ring).
  assert (SL : slope_in f l = dv / du) by reflexivity.
  assert (G : get_slope (loc2 f (fst l), loc2 f (snd l)) = Some (slope_in f l)).
  { unfold get_slope. cbn [fst snd]. rewrite (proj2 (Reqb_false _ _)) by lra. rewrite EX, EY. reflexivity. }
  assert (HH : height_in f l = y2 (loc2 f (fst l)) - slope_in f l * x2 (loc2 f (fst l))) by reflexivity.
  split; [exact G|]. split; [unfold get_y_intersection; rewrite G; cbn [fst]; rewrite HH; reflexivity|].
  intros p. rewrite HH, SL. set (m := dv / du). assert (M : m * du = dv) by (unfold m; field; auto). clearbody m. split.
  - intros (t & ->). rewrite loc_param. unfold at_param2, loc_line, add2, mul2, sub2. cbn [fst snd x2 y2]. rewrite EX, EY, <- M. ring.
  - intros E. exists ((x2 (loc2 f p) - x2 (loc2 f (fst l))) / du). refine (eq_trans (eq_sym (l2g_loc f p O)) (eq_trans _ (l2g_loc f _ O))). f_equal. rewrite loc_param.
    unfold at_param2, loc_line, add2, mul2, sub2. cbn [fst snd]. rewrite EX, EY. apply vec2_ext; cbn [x2 y2]; [field; auto|]. rewrite E, <- M. field. auto.
Qed.
Lemma on_branch_loc h p : orthonormal2 (fb2 (hf h)) -> (on_branch2 h p <-> branch (ha h) (hb h) (loc2 (hf h) p)).
Proof.
  intros O. split; [intros (q & B & ->); rewrite point_l2g, loc_l2g; auto|]. intros B. exists (loc2 (hf h) p). split; [auto|]. now rewrite point_l2g, l2g_loc.
Qed.
Lemma hyp_line_ok h l : orthonormal2 (fb2 (hf h)) -> ha h <> 0 -> hb h <> 0 -> ~ parallel_to_v (hf h) l -> (ha h * slope_in (hf h) l) ^ 2 <> hb h ^ 2 ->
  exists r, hyperbola2_line_intersections h l = Ok r /\ forall p, In p r <-> on_branch2 h p /\ line2_has l p.
Proof.
  intros O A B N S. unfold hyperbola2_line_intersections. rewrite !frame2_g2l_ok by auto. cbn [bind]. destruct (line_local (hf h) l O N) as (E1 & E2 & L). rewrite E1, E2. cbv zeta.
  set (m := slope_in (hf h) l) in *. set (c := height_in (hf h) l) in *. set (a := ha h) in *. set (b := hb h) in *.
  pose proof (sqr_pos a A) as PA. pose proof (sqr_pos b B) as PB. set (aq := a ^ 2 * m ^ 2 - b ^ 2). assert (AQ : aq <> 0) by (unfold aq; intros Z; apply S; lra).
  (* the equation of the common points *)
  assert (EQ : forall p, on_branch2 h p /\ line2_has l p <-> exists x, 0 < x /\ aq * x ^ 2 + 2 * a ^ 2 * m * c * x + a ^ 2 * (b ^ 2 + c ^ 2) = 0 /\ p = frame2_l2g (hf h) (V2 x (m * x + c))).
  { intros p. rewrite (on_branch_loc h p O), L. unfold branch. fold a b. set (q := loc2 (hf h) p). split.
    - intros ((X & E) & Y). exists (x2 q). split; [auto|]. split.
      + assert (E' : b ^ 2 * x2 q ^ 2 - a ^ 2 * y2 q ^ 2 = a ^ 2 * b ^ 2). { rewrite <- (Rmult_1_r (a ^ 2 * b ^ 2)), <- E. field. split; auto. } rewrite Y in E'. unfold aq. lra.
      + rewrite <- Y. replace (V2 (x2 q) (y2 q)) with q by (destruct q; reflexivity). unfold q. symmetry. now apply l2g_loc.
    - intros (x & X & E & ->). unfold q. rewrite loc_l2g by auto. cbn [x2 y2]. split; [split; [auto|]|reflexivity].
      apply (Rmult_eq_reg_r (a ^ 2 * b ^ 2)); [|nra]. replace ((x ^ 2 / a ^ 2 - (m * x + c) ^ 2 / b ^ 2) * (a ^ 2 * b ^ 2)) with (b ^ 2 * x ^ 2 - a ^ 2 * (m * x + c) ^ 2) by (field; split; auto). unfold aq in E. lra. }
  assert (DD : (2 * a ^ 2 * m * c) ^ 2 - 4 * aq * (a ^ 2 * (b ^ 2 + c ^ 2)) = 4 * (a ^ 2 * b ^ 2) * (c ^ 2 - aq)) by (unfold aq; ring).
  set (k := a ^ 2 * (b ^ 2 + c ^ 2)) in *. set (bq := 2 * a ^ 2 * m * c) in *. assert (PAB : 0 < a ^ 2 * b ^ 2) by nra.
  destruct (Rltb (c ^ 2) aq) eqn:T.
  - apply Rltb_spec in T. exists []. split; [reflexivity|]. intros p. rewrite EQ. split; [intros []|]. intros (x & X & E & _). exfalso.
    assert (0 <= (2 * aq * x + bq) ^ 2) by apply pow2_ge_0. assert ((2 * aq * x + bq) ^ 2 = 4 * aq * (aq * x ^ 2 + bq * x + k) + (bq ^ 2 - 4 * aq * k)) by ring. rewrite E, DD in H0. nra.
  - apply Rltb_false in T. rewrite (proj2 (Reqb_false aq 0) AQ). assert (D0 : 0 <= bq ^ 2 - 4 * aq * k) by (rewrite DD; apply Rmult_le_pos; lra).
    unfold sqrt_py. rewrite (proj2 (Rltb_false _ 0)) by lra. cbn [bind]. set (d := sqrt (bq ^ 2 - 4 * aq * k)). assert (Dd : d ^ 2 = bq ^ 2 - 4 * aq * k) by (apply pow2_sqrt; auto).
    eexists. split; [reflexivity|]. intros p. rewrite EQ. set (x1 := (- bq + d) / (2 * aq)). set (x2' := (- bq - d) / (2 * aq)).
    assert (V1 : 2 * aq * x1 = - bq + d) by (unfold x1; field; auto). assert (V2' : 2 * aq * x2' = - bq - d) by (unfold x2'; field; auto).
    assert (ROOT : forall x, aq * x ^ 2 + bq * x + k = 0 <-> x = x1 \/ x = x2').
    { intros x. assert (F : 4 * aq * (aq * x ^ 2 + bq * x + k) = (2 * aq * x - 2 * aq * x1) * (2 * aq * x - 2 * aq * x2')). { rewrite V1, V2'. replace ((2 * aq * x - (- bq + d)) * (2 * aq * x - (- bq - d))) with ((2 * aq * x + bq) ^ 2 - d ^ 2) by ring. rewrite Dd. ring. }
      split.
      - intros E. rewrite E, Rmult_0_r in F. symmetry in F. apply Rmult_integral in F as [F|F]; [left|right]; (apply (Rmult_eq_reg_l (2 * aq)); [lra|lra]).
      - intros H. assert (Z : 4 * aq * (aq * x ^ 2 + bq * x + k) = 0) by (rewrite F; destruct H as [-> | ->]; ring). apply Rmult_integral in Z as [Z|Z]; [lra|exact Z]. }
    assert (IN : forall x q, In q (if Rltb 0 x then [V2 x (m * x + c)] else []) <-> 0 < x /\ q = V2 x (m * x + c)).
    { intros x q. destruct (Rltb 0 x) eqn:G; [apply Rltb_spec in G|apply Rltb_false in G]; split; [intros [<-|[]]; auto|intros (_ & ->); now left|intros []|intros (H & _); lra]. }
    rewrite in_map_iff. split.
    + intros (q & <- & Hq). apply in_app_iff in Hq as [Hq|Hq]; apply IN in Hq as (P & ->); eexists; (split; [exact P|]); (split; [apply ROOT; auto|reflexivity]).
    + intros (x & P & E & ->). exists (V2 x (m * x + c)). split; [reflexivity|]. apply ROOT in E. apply in_app_iff. destruct E as [-> | ->]; [left|right]; apply IN; auto.
Qed.
