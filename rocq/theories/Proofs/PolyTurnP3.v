From Coq Require Import List Arith Bool Reals Lra Lia Psatz.
From Verif.Model Require Import RBase Vec Geometry Curves Edges PolyTurn.
From Verif.Spec Require Import AngleSpec PolyTurnSpec.
From Verif.Proofs Require Import VecP GeometryP ParamSurfP ParamSurfP6 PolyTurnP PolyTurnP2.
Import ListNotations.
Open Scope R_scope.

Lemma atan_le x : 0 <= x -> atan x <= x.
Proof.
  intros H. destruct (Req_dec x 0) as [->|N]; [rewrite atan_0; lra|].
  destruct (MVT_cor2 atan (fun x => / (1 + x ^ 2)) 0 x ltac:(lra)) as (c & E & Hc).
  - intros c _. apply (derivable_pt_lim_atan c).
  - rewrite atan_0, !Rminus_0_r in E. rewrite E. assert (0 < / (1 + c ^ 2) <= 1); [|nra]. assert (0 <= c ^ 2) by nra. split; [apply Rinv_0_lt_compat; lra|].
    rewrite <- Rinv_1. apply Rinv_le_contravar; lra.
Qed.
(** atan2 as a complement *)
Lemma atan2_upper y x : 0 < y -> atan2 y x = PI / 2 - atan (x / y).
Proof.
  intros H. unfold atan2. destruct (Rltb 0 x) eqn:E1; rb.
  - replace (y / x) with (/ (x / y)) by (field; lra). rewrite atan_inv by (apply Rdiv_lt_0_compat; assumption). reflexivity.
  - destruct (Rltb x 0) eqn:E2; rb.
    + assert (Rleb 0 y = true) as -> by (apply Rleb_spec; lra). replace (y / x) with (- / (- x / y)) by (field; lra). rewrite atan_opp, atan_inv by (apply Rdiv_lt_0_compat; lra).
      replace (- x / y) with (- (x / y)) by (field; lra). rewrite atan_opp. lra.
    + assert (Rltb 0 y = true) as -> by (apply Rltb_spec; lra). assert (x = 0) by lra. subst x. unfold Rdiv. rewrite Rmult_0_l, atan_0. lra.
Qed.
Lemma atan2_lower y x : y < 0 -> atan2 y x = - (PI / 2) - atan (x / y).
Proof.
  intros H. unfold atan2. destruct (Rltb 0 x) eqn:E1; rb.
  - replace (y / x) with (- / (- (x / y))) by (field; lra). rewrite atan_opp, atan_inv; [rewrite atan_opp; lra|]. replace (- (x / y)) with (x / - y) by (field; lra). apply Rdiv_lt_0_compat; lra.
  - destruct (Rltb x 0) eqn:E2; rb.
    + assert (Rleb 0 y = false) as -> by (apply Rleb_false; lra). replace (y / x) with (/ (x / y)) by (field; lra). rewrite atan_inv; [lra|]. replace (x / y) with (- x / - y) by (field; lra). apply Rdiv_lt_0_compat; lra.
    + assert (Rltb 0 y = false) as -> by (apply Rltb_false; lra). assert (Rltb y 0 = true) as -> by (apply Rltb_spec; lra). assert (x = 0) by lra. subst x. unfold Rdiv. rewrite Rmult_0_l, atan_0. lra.
Qed.
Lemma quotient_eq d e : d <> V2 0 0 -> e <> V2 0 0 -> cross2 d e <> 0 -> (dot2 d e / (norm2 d * norm2 e)) / (cross2 d e / norm2 e) = dot2 d e / (cross2 d e * norm2 d).
Proof. intros D E C. pose proof (norm_pos_ne d D). pose proof (norm_pos_ne e E). field. lra. Qed.
Lemma ratio_small d e : d <> V2 0 0 -> cross2 d e <> 0 -> 25 * (dot2 d e * dot2 d e) <= cross2 d e * cross2 d e * dot2 d d -> Rabs (dot2 d e / (cross2 d e * norm2 d)) <= 1 / 5.
Proof.
  intros D C H. pose proof (norm_pos_ne d D) as N. rewrite <- norm2_sq in H. set (n := norm2 d) in *. set (c := cross2 d e) in *. set (p := dot2 d e) in *.
  assert (Q : Rabs (p / (c * n)) * (5 * Rabs (c * n)) = 5 * Rabs p). { unfold Rdiv. rewrite Rabs_mult, Rabs_inv. field. apply Rabs_no_R0. nra. }
  assert (PC : 0 < Rabs (c * n)) by (apply Rabs_pos_lt; nra).
  apply Rmult_le_reg_r with (5 * Rabs (c * n)); [lra|]. rewrite Q. replace (1 / 5 * (5 * Rabs (c * n))) with (Rabs (c * n)) by field.
  rewrite <- (Rabs_right 5) by lra. rewrite <- Rabs_mult. apply Rsqr_le_abs_0. unfold Rsqr. lra.
Qed.
Lemma small_left d e : d <> V2 0 0 -> e <> V2 0 0 -> 0 < cross2 d e -> 25 * (dot2 d e * dot2 d e) <= cross2 d e * cross2 d e * dot2 d d -> angle_of d e <= PI / 2 + 1 / 5.
Proof.
  intros D E C H. unfold angle_of. rewrite atan2_upper by (apply Rdiv_lt_0_compat; [assumption|apply norm_pos_ne; assumption]). rewrite quotient_eq by (assumption || lra).
  pose proof (ratio_small d e D ltac:(lra) H) as K. set (q := dot2 d e / (cross2 d e * norm2 d)) in *.
  destruct (Rle_lt_dec 0 q) as [P|P]; [assert (0 <= atan q); [|lra]; rewrite <- atan_0; destruct P as [P|<-]; [left; apply atan_increasing; exact P|lra]|].
  rewrite Rabs_left in K by exact P. pose proof (atan_le (- q) ltac:(lra)) as L. rewrite atan_opp in L. lra.
Qed.
Lemma small_right d e : d <> V2 0 0 -> e <> V2 0 0 -> cross2 d e < 0 -> 25 * (dot2 d e * dot2 d e) <= cross2 d e * cross2 d e * dot2 d d -> angle_of d e <= - (PI / 2) + 1 / 5.
Proof.
  intros D E C H. unfold angle_of. assert (0 < / norm2 e) by (apply Rinv_0_lt_compat, norm_pos_ne; assumption). rewrite atan2_lower by (unfold Rdiv; nra). rewrite quotient_eq by (assumption || lra).
  pose proof (ratio_small d e D ltac:(lra) H) as K. set (q := dot2 d e / (cross2 d e * norm2 d)) in *.
  destruct (Rle_lt_dec 0 q) as [P|P]; [assert (0 <= atan q); [|lra]; rewrite <- atan_0; destruct P as [P|<-]; [left; apply atan_increasing; exact P|lra]|].
  rewrite Rabs_left in K by exact P. pose proof (atan_le (- q) ltac:(lra)) as L. rewrite atan_opp in L. lra.
Qed.
(** in small units *)
Lemma back_left d e : d <> V2 0 0 -> e <> V2 0 0 -> 0 < cross2 d e -> dot2 d e <= 0 -> PI / 2 <= angle_of d e.
Proof.
  intros D E C H. unfold angle_of. rewrite atan2_upper by (apply Rdiv_lt_0_compat; [assumption|apply norm_pos_ne; assumption]). rewrite quotient_eq by (assumption || lra).
  pose proof (norm_pos_ne d D). assert (I : 0 < / (cross2 d e * norm2 d)) by (apply Rinv_0_lt_compat, Rmult_lt_0_compat; assumption).
  assert (Q : dot2 d e / (cross2 d e * norm2 d) <= 0) by (unfold Rdiv; nra). assert (atan (dot2 d e / (cross2 d e * norm2 d)) <= 0); [|lra].
  rewrite <- atan_0. destruct Q as [Q|Q]; [left; apply atan_increasing; exact Q|rewrite Q; lra].
Qed.
Lemma slight_right d e : d <> V2 0 0 -> e <> V2 0 0 -> cross2 d e < 0 -> 0 < dot2 d e -> cross2 d e * cross2 d e * dot2 d d <= dot2 d e * dot2 d e -> - (PI / 4) <= angle_of d e.
Proof.
  intros D E C P H. unfold angle_of. assert (0 < / norm2 e) by (apply Rinv_0_lt_compat, norm_pos_ne; assumption). rewrite atan2_lower by (unfold Rdiv; nra). rewrite quotient_eq by (assumption || lra).
  pose proof (norm_pos_ne d D) as N. rewrite <- norm2_sq in H. set (n := norm2 d) in *. set (c := cross2 d e) in *. set (p := dot2 d e) in *.
  assert (L : p / (c * n) <= - 1). { assert (CN : 0 < - c * n) by (apply Rmult_lt_0_compat; lra). apply Rmult_le_reg_r with (- c * n); [exact CN|].
    replace (p / (c * n) * (- c * n)) with (- p) by (field; lra). assert (- c * n <= p); [|lra]. apply Rsqr_incr_0_var; [unfold Rsqr; lra|lra]. }
  assert (atan (p / (c * n)) <= - (PI / 4)); [|lra]. rewrite <- atan_1, <- atan_opp. destruct L as [L|L]; [left; apply atan_increasing; lra|right; f_equal; lra].
Qed.

Definition wrong_way (k : R) : list vec2 := map (fun p => mul2 p k) [V2 0 0; V2 40 10; V2 60 10; V2 100 0; V2 65 45; V2 50 100; V2 35 45].
Ltac v_ne := let E := fresh in intros E; pose proof (f_equal x2 E); pose proof (f_equal y2 E); cbn in *; lra.
Lemma wrong_corners k i : (i < 7)%nat -> side (wrong_way k) i = nth i (map (fun p => mul2 p k) [V2 40 10; V2 20 0; V2 40 (-10); V2 (-35) 45; V2 (-15) 55; V2 (-15) (-55); V2 (-35) (-45)]) O2D
  /\ side (wrong_way k) (S i) = nth i (map (fun p => mul2 p k) [V2 20 0; V2 40 (-10); V2 (-35) 45; V2 (-15) 55; V2 (-15) (-55); V2 (-35) (-45); V2 40 10]) O2D.
Proof.
  intros H. unfold side, corner, wrong_way. do 7 (destruct i as [|i]; [cbn; unfold sub2, mul2; cbn; split; f_equal; ring|]). lia.
Qed.
Lemma wrong_no_repeat k : k <> 0 -> no_repeat (wrong_way k).
Proof.
  intros K i E. rewrite <- corner_mod_S, <- (corner_mod _ i) in E. change (length (wrong_way k)) with 7%nat in E. assert (H : (i mod 7 < 7)%nat) by (apply Nat.mod_upper_bound; lia). revert E H. generalize (i mod 7)%nat. clear i. intros i E H.
  unfold corner, wrong_way in E. assert (E1 := f_equal x2 E). do 7 (destruct i as [|i]; [cbn in E1; nra|]). lia.
Qed.
Lemma area_wrong : 0 < twice_area (wrong_way 1).
Proof. unfold twice_area, corner, wrong_way. cbn. unfold cross2. cbn. lra. Qed.
Lemma wrong_simple : simple_polygon (wrong_way 1).
Proof.
  split; [apply wrong_no_repeat; lra|]. intros i j s t H S1 T E. change (length (wrong_way 1)) with 7%nat in *. unfold on_side in E.
  assert (Hj : (j < 7)%nat) by lia. assert (Hi : (i < 7)%nat) by lia. rewrite (proj1 (wrong_corners 1 i Hi)), (proj1 (wrong_corners 1 j Hj)) in E.
  assert (E1 := f_equal x2 E). assert (E2 := f_equal y2 E). clear E.
  do 7 (destruct i as [|i]; [do 7 (destruct j as [|j]; [try (exfalso; lia); cbn in E1, E2;
     first [exfalso; lra | left; split; [reflexivity|split; lra] | right; split; [reflexivity|split; [reflexivity|split; lra]]]|]); lia|]). lia.
Qed.
Lemma wrong_false : is_trigo (wrong_way 1) = Ok false.
Proof.
  rewrite (is_trigo_eq _ (wrong_no_repeat 1 ltac:(lra)) ltac:(cbn; lia)). f_equal. apply Rltb_false. change (length (wrong_way 1)) with 7%nat. cbn [seq map sumR].
  repeat (match goal with |- context [angle_of (side (wrong_way 1) ?i) (side (wrong_way 1) (S ?i))] => 
    let A := fresh in assert (A := wrong_corners 1 i ltac:(lia)); rewrite (proj1 A), (proj2 A); clear A end).
  cbn [nth map]. unfold mul2. cbn [x2 y2].
  assert (GL : forall a b c d, a <> 0 -> c <> 0 -> 0 < a * d - b * c -> 25 * ((a * c + b * d) * (a * c + b * d)) <= (a * d - b * c) * (a * d - b * c) * (a * a + b * b) -> angle_of (V2 a b) (V2 c d) <= PI / 2 + 1 / 5).
  { intros a b c d A C P Q. apply small_left; [v_ne|v_ne|exact P|exact Q]. }
  assert (GR : forall a b c d, a <> 0 -> c <> 0 -> a * d - b * c < 0 -> 25 * ((a * c + b * d) * (a * c + b * d)) <= (a * d - b * c) * (a * d - b * c) * (a * a + b * b) -> angle_of (V2 a b) (V2 c d) <= - (PI / 2) + 1 / 5).
  { intros a b c d A C P Q. apply small_right; [v_ne|v_ne|exact P|exact Q]. }
  pose proof (GR (40 * 1) (10 * 1) (20 * 1) (0 * 1) ltac:(lra) ltac:(lra) ltac:(lra) ltac:(lra)).
  pose proof (GR (20 * 1) (0 * 1) (40 * 1) (-10 * 1) ltac:(lra) ltac:(lra) ltac:(lra) ltac:(lra)).
  pose proof (GL (40 * 1) (-10 * 1) (-35 * 1) (45 * 1) ltac:(lra) ltac:(lra) ltac:(lra) ltac:(lra)).
  pose proof (GR (-35 * 1) (45 * 1) (-15 * 1) (55 * 1) ltac:(lra) ltac:(lra) ltac:(lra) ltac:(lra)).
  pose proof (GL (-15 * 1) (55 * 1) (-15 * 1) (-55 * 1) ltac:(lra) ltac:(lra) ltac:(lra) ltac:(lra)).
  pose proof (GR (-15 * 1) (-55 * 1) (-35 * 1) (-45 * 1) ltac:(lra) ltac:(lra) ltac:(lra) ltac:(lra)).
  pose proof (GL (-35 * 1) (-45 * 1) (40 * 1) (10 * 1) ltac:(lra) ltac:(lra) ltac:(lra) ltac:(lra)).
  pose proof PI2_3_2. unfold PI2 in *. lra.
Qed.
Lemma wrong_small_true : is_trigo (wrong_way (/ 1000)) = Ok true.
Proof.
  rewrite (is_trigo_eq _ (wrong_no_repeat (/ 1000) ltac:(lra)) ltac:(cbn; lia)). f_equal. apply Rltb_spec. change (length (wrong_way (/ 1000))) with 7%nat. cbn [seq map sumR].
  repeat (match goal with |- context [angle_of (side (wrong_way (/ 1000)) ?i) (side (wrong_way (/ 1000)) (S ?i))] => 
    let A := fresh in assert (A := wrong_corners (/ 1000) i ltac:(lia)); rewrite (proj1 A), (proj2 A); clear A end).
  cbn [nth map]. unfold mul2. cbn [x2 y2]. set (k := / 1000).
  assert (GL : forall a b c d, a <> 0 -> c <> 0 -> 0 < a * d - b * c -> a * c + b * d <= 0 -> PI / 2 <= angle_of (V2 a b) (V2 c d)).
  { intros a b c d A C P Q. apply back_left; [v_ne|v_ne|exact P|exact Q]. }
  assert (GR : forall a b c d, a <> 0 -> c <> 0 -> a * d - b * c < 0 -> 0 < a * c + b * d -> (a * d - b * c) * (a * d - b * c) * (a * a + b * b) <= (a * c + b * d) * (a * c + b * d) -> - (PI / 4) <= angle_of (V2 a b) (V2 c d)).
  { intros a b c d A C P Q1 Q. apply slight_right; [v_ne|v_ne|exact P|exact Q1|exact Q]. }
  pose proof (GR (40 * k) (10 * k) (20 * k) (0 * k) ltac:(unfold k; lra) ltac:(unfold k; lra) ltac:(unfold k; lra) ltac:(unfold k; lra) ltac:(unfold k; lra)).
  pose proof (GR (20 * k) (0 * k) (40 * k) (-10 * k) ltac:(unfold k; lra) ltac:(unfold k; lra) ltac:(unfold k; lra) ltac:(unfold k; lra) ltac:(unfold k; lra)).
  pose proof (GL (40 * k) (-10 * k) (-35 * k) (45 * k) ltac:(unfold k; lra) ltac:(unfold k; lra) ltac:(unfold k; lra) ltac:(unfold k; lra)).
  pose proof (GR (-35 * k) (45 * k) (-15 * k) (55 * k) ltac:(unfold k; lra) ltac:(unfold k; lra) ltac:(unfold k; lra) ltac:(unfold k; lra) ltac:(unfold k; lra)).
  pose proof (GL (-15 * k) (55 * k) (-15 * k) (-55 * k) ltac:(unfold k; lra) ltac:(unfold k; lra) ltac:(unfold k; lra) ltac:(unfold k; lra)).
  pose proof (GR (-15 * k) (-55 * k) (-35 * k) (-45 * k) ltac:(unfold k; lra) ltac:(unfold k; lra) ltac:(unfold k; lra) ltac:(unfold k; lra) ltac:(unfold k; lra)).
  pose proof (GL (-35 * k) (-45 * k) (40 * k) (10 * k) ltac:(unfold k; lra) ltac:(unfold k; lra) ltac:(unfold k; lra) ltac:(unfold k; lra)).
  pose proof PI_RGT_0. lra.
Qed.
Lemma trigo_refuted : exists pts, simple_polygon pts /\ 0 < twice_area pts /\ is_trigo pts = Ok false /\ is_trigo (map (fun p => mul2 p (/ 1000)) pts) = Ok true.
Proof.
  exists (wrong_way 1). split; [apply wrong_simple|]. split; [apply area_wrong|]. split; [apply wrong_false|].
  assert (E : map (fun p => mul2 p (/ 1000)) (wrong_way 1) = wrong_way (/ 1000)); [|rewrite E; apply wrong_small_true].
  unfold wrong_way. cbn [map]. unfold mul2. cbn [x2 y2]. repeat (f_equal; try ring).
Qed.
(** the pentagram *)
Definition pentagram : list vec2 := [V2 0 3; V2 (-2) (-3); V2 3 1; V2 (-3) 1; V2 2 (-3)].
Lemma pentagram_no_repeat : no_repeat pentagram.
Proof.
  intros i E. rewrite <- corner_mod_S, <- (corner_mod _ i) in E. change (length pentagram) with 5%nat in E. assert (H : (i mod 5 < 5)%nat) by (apply Nat.mod_upper_bound; lia). revert E H. generalize (i mod 5)%nat. clear i. intros i E H.
  unfold corner, pentagram in E. assert (E1 := f_equal x2 E). do 5 (destruct i as [|i]; [cbn in E1; lra|]). lia.
Qed.
Lemma convex_refuted : exists pts, no_repeat pts /\ is_convex pts = Ok true /\ ~ simple_polygon pts /\ ~ convex_trigo pts /\ ~ convex_clockwise pts.
Proof.
  exists pentagram. pose proof pentagram_no_repeat as NR. split; [exact NR|].
  assert (T : forall i, 0 < turn pentagram i).
  { intros i. rewrite <- turn_mod. assert (H : (i mod length pentagram < 5)%nat) by (apply Nat.mod_upper_bound; cbn; lia). revert H. generalize (i mod length pentagram)%nat. intros j H.
    unfold turn, side, corner, pentagram. do 5 (destruct j as [|j]; [cbn; unfold cross2, sub2; cbn; lra|]). lia. }
  split; [|split; [|split]].
  - destruct (is_convex_spec pentagram NR ltac:(cbn; lia)) as (t & c & E & -> & S1). f_equal. apply S1.
    assert (K : is_trigo pentagram = Ok true). { apply trigo_left; [exact NR|cbn; lia| |exists 0%nat; apply T]. intros i. split; [apply Rlt_le, T|]. intros [Z _]. pose proof (T i). lra. }
    rewrite K in E. injection E as <-. intros i. apply Rlt_le, T.
  - intros [_ H]. specialize (H 0%nat 2%nat (1 / 3) (11 / 18)). unfold on_side, side, corner, pentagram in H. cbn in H. 
    assert (X : (2%nat = 1%nat /\ 1 / 3 = 1 /\ 11 / 18 = 0) \/ (0%nat = 0%nat /\ 2%nat = 4%nat /\ 1 / 3 = 0 /\ 11 / 18 = 1)); [|destruct X as [(X & _)|(_ & X & _)]; discriminate X].
    apply H; [lia|lra|lra|]. unfold add2, mul2, sub2. cbn. f_equal; field || lra.
  - intros C. specialize (C 0%nat 3%nat). unfold side, corner, pentagram in C. cbn in C. unfold cross2, sub2 in C. cbn in C. lra.
  - intros C. specialize (C 0%nat 2%nat). unfold side, corner, pentagram in C. cbn in C. unfold cross2, sub2 in C. cbn in C. lra.
Qed.
