From Coq Require Import Reals Lra List Lia Sorted.
From Verif.Model Require Import Base RBase Vec Frame Geometry Curves Edges Arcs Rounded.
From Verif.Spec Require Import VecSpec CurvesSpec RoundedSpec.
From Verif.Proofs Require Import VecP RoundedP RoundedP2 RoundedP3 RoundedP4 RoundedP5 RoundedP6 RoundedP7.
Import ListNotations.
Open Scope R_scope.

Lemma unit_of u k v : norm2 u = 1 -> 0 < k -> v = mul2 u k -> unit_vector2 v = Ok u.
Proof.
  intros U K ->. apply unit2_ok. split.
  - intros Z. assert (Q : norm2 (mul2 u k) = 0) by (rewrite Z; apply norm2_zero; auto). rewrite norm2_scale, U, Rabs_right in Q by lra. lra.
  - rewrite norm2_scale, U, Rabs_right by lra. unfold mul2. apply vec2_ext; cbn [x2 y2]; field; lra.
Qed.
Lemma half_cos x : -1 <= x <= 1 -> cos (acos x / 2) * cos (acos x / 2) = (1 + x) / 2 /\ 0 <= cos (acos x / 2).
Proof.
  intros H. pose proof (acos_bound x) as [A B]. split; [|apply cos_ge_0; lra]. assert (C : cos (2 * (acos x / 2)) = x) by (replace (2 * (acos x / 2)) with (acos x) by field; apply cos_acos; lra). rewrite cos_2 in C. lra.
Qed.
(** one corner: the offset point is at the signed distance [offset] of the two sides *)
Lemma offset_corner_spec s vs off i u v p q nr : getpred vs (2 * i) = Ok u -> geti vs (2 * i) = Ok v -> norm2 u = 1 -> norm2 v = 1 ->
  (add2 u v = V2 0 0 \/ / 10 ^ 6 < norm2 (add2 u v)) -> geti (rpts s) i = Ok p -> offset_corner s vs off i = Ok (q, nr) ->
  dot2 (sub2 q p) (neg2 (normal_vector2 u)) = off /\ dot2 (sub2 q p) (normal_vector2 v) = off /\
  (match lookup i (rrad s) with
   | None => nr = None
   | Some r => let r' := if Rleb 0 (cross2 v u) then r - off else r + off in
               if Rltb 0 r' then nr = Some (i, r') else nr = if radapt s then Some (i, / 10 ^ 6) else None
   end).
Proof.
  intros U V U1 V1 CL P H. unfold offset_corner in H. rewrite U in H. cbn [bind] in H. rewrite V in H. cbn [bind] in H.
  assert (Ud : x2 u * x2 u + y2 u * y2 u = 1) by (apply norm2_1 in U1; exact U1). assert (Vd : x2 v * x2 v + y2 v * y2 v = 1) by (apply norm2_1 in V1; exact V1).
  assert (NU : unit_vector2 (normal_vector2 u) = Ok (normal_vector2 u)).
  { apply (unit_of _ 1); [|lra|unfold mul2, normal_vector2; apply vec2_ext; cbn [x2 y2]; ring]. apply norm2_of_sq; [lra|]. unfold dot2, normal_vector2; cbn [x2 y2]. lra. }
  assert (NV : unit_vector2 (normal_vector2 v) = Ok (normal_vector2 v)).
  { apply (unit_of _ 1); [|lra|unfold mul2, normal_vector2; apply vec2_ext; cbn [x2 y2]; ring]. apply norm2_of_sq; [lra|]. unfold dot2, normal_vector2; cbn [x2 y2]. lra. }
  apply bind_ok in H as ([ov check] & OV & H). rewrite NU in H. cbn [bind] in H. rewrite NV in H. cbn [bind] in H.
  set (cs := dot2 (neg2 (normal_vector2 u)) (normal_vector2 v)) in *. destruct (Rltb 1 (Rabs cs)) eqn:LT; [discriminate|]. apply Rltb_false in LT.
  assert (CB : -1 <= cs <= 1) by (revert LT; unfold Rabs; destruct (Rcase_abs cs); lra). destruct (half_cos cs CB) as [C1 C2]. set (c := cos (acos cs / 2)) in *.
  destruct (Reqb c 0) eqn:Z; [discriminate|]. apply Reqb_false in Z. rewrite P in H. cbn [bind] in H. apply Ok_inj in H. apply pair_equal_spec in H as [<- <-].
  assert (Cp : 0 < c) by lra.
  assert (CE : cs = - (x2 u * x2 v + y2 u * y2 v)) by (unfold cs, dot2, neg2, normal_vector2; cbn [x2 y2]; ring).
  set (sn := cross2 v u). assert (SN : sn * sn + cs * cs = 1).
  { rewrite CE. unfold sn, cross2. transitivity ((x2 u * x2 u + y2 u * y2 u) * (x2 v * x2 v + y2 v * y2 v)); [ring|rewrite Ud, Vd; ring]. }
  assert (KEY : dot2 ov (neg2 (normal_vector2 u)) = c /\ dot2 ov (normal_vector2 v) = c /\ (check = true <-> sn < 0)).
  { destruct (is_close2 (add2 u v) (V2 0 0) (/ 10 ^ 6)) eqn:CLO.
    - destruct CL as [CL|CL].
      + apply Ok_inj in OV. apply pair_equal_spec in OV as [<- <-]. assert (VX : x2 v = - x2 u) by (pose proof (f_equal x2 CL) as Q; cbn in Q; lra). assert (VY : y2 v = - y2 u) by (pose proof (f_equal y2 CL) as Q; cbn in Q; lra).
        assert (C11 : cs = 1) by (rewrite CE, VX, VY; lra). assert (c = 1) by (rewrite C11 in C1; nra). rewrite H. unfold dot2, neg2, normal_vector2, sn, cross2; cbn [x2 y2]. rewrite VX, VY. repeat split; try lra; try discriminate.
      + exfalso. apply is_close2_spec in CLO; [|left; apply Rinv_0_lt_compat, pow_lt; lra]. unfold point_distance2 in CLO. replace (sub2 (add2 u v) (V2 0 0)) with (add2 u v) in CLO by (unfold sub2, add2; apply vec2_ext; cbn [x2 y2]; ring). lra.
    - destruct (unit_vector2 (add2 u v)) as [n|] eqn:UN; cbn [bind] in OV; [|discriminate]. apply Ok_inj in OV. apply unit2_spec in UN as (N1 & N2 & N3).
      set (m := norm2 (add2 u v)) in *. assert (M2 : m * m = 2 - 2 * cs).
      { unfold m. rewrite norm2_sq, CE. unfold dot2, add2; cbn [x2 y2]. transitivity ((x2 u * x2 u + y2 u * y2 u) + (x2 v * x2 v + y2 v * y2 v) + 2 * (x2 u * x2 v + y2 u * y2 v)); [ring|rewrite Ud, Vd; ring]. }
      assert (NX : x2 n * m = x2 u + x2 v) by (pose proof (f_equal x2 N2) as Q; exact Q). assert (NY : y2 n * m = y2 u + y2 v) by (pose proof (f_equal y2 N2) as Q; exact Q).
      assert (D1 : m * dot2 n (neg2 (normal_vector2 u)) = sn) by (unfold dot2, neg2, normal_vector2, sn, cross2; cbn [x2 y2]; transitivity ((x2 n * m) * y2 u - (y2 n * m) * x2 u); [ring|rewrite NX, NY; ring]).
      assert (D2 : m * dot2 n (normal_vector2 v) = sn) by (unfold dot2, normal_vector2, sn, cross2; cbn [x2 y2]; transitivity ((y2 n * m) * x2 v - (x2 n * m) * y2 v); [ring|rewrite NX, NY; ring]).
      assert (D3 : m * dot2 n (normal_vector2 u) = - sn) by (rewrite <- D1; unfold dot2, neg2, normal_vector2; cbn [x2 y2]; ring).
      assert (MC : (m * c) * (m * c) = sn * sn) by (transitivity ((m * m) * (c * c)); [ring|rewrite M2, C1; lra]).
      assert (MP : 0 < m * c) by nra.
      assert (SG : sn = m * c \/ sn = - (m * c)) by (symmetry in MC; apply Rsqr_eq in MC; tauto).
      destruct (Rltb 0 (dot2 n (normal_vector2 u))) eqn:F; apply pair_equal_spec in OV as [<- <-].
      + apply Rltb_spec in F. assert (sn < 0) by nra. assert (SE : sn = - (m * c)) by lra.
        assert (E1 : dot2 n (neg2 (normal_vector2 u)) = - c) by (apply Rmult_eq_reg_l with m; lra). assert (E2 : dot2 n (normal_vector2 v) = - c) by (apply Rmult_eq_reg_l with m; lra).
        split; [transitivity (- dot2 n (neg2 (normal_vector2 u))); [unfold dot2, neg2; cbn [x2 y2]; ring|lra]|]. split; [transitivity (- dot2 n (normal_vector2 v)); [unfold dot2, neg2; cbn [x2 y2]; ring|lra]|]. tauto.
      + apply Rltb_false in F. assert (0 <= sn) by nra. assert (SE : sn = m * c) by lra.
        split; [apply Rmult_eq_reg_l with m; lra|]. split; [apply Rmult_eq_reg_l with m; lra|]. split; [discriminate|intros; exfalso; lra]. }
  destruct KEY as (K1 & K2 & K3).
  assert (DQ : forall w, dot2 (sub2 (add2 p (mul2 ov (off / c))) p) w = off / c * dot2 ov w) by (intros w; unfold dot2, sub2, add2, mul2; cbn [x2 y2]; ring).
  rewrite !DQ, K1, K2. split; [field; lra|]. split; [field; lra|].
  destruct (lookup i (rrad s)) as [r|]; [|reflexivity]. cbv zeta. fold sn.
  assert (RE : (if check && Rltb 0 off || negb check && Rltb off 0 then r + Rabs off else r - Rabs off) = if Rleb 0 sn then r - off else r + off).
  { destruct (Rleb 0 sn) eqn:L; [apply Rleb_spec in L|apply Rleb_false in L].
    - assert (CF : check = false) by (destruct check; auto; assert (sn < 0) by (apply K3; auto); lra). rewrite CF. cbn [andb orb negb]. destruct (Rltb off 0) eqn:O; [apply Rltb_spec in O; rewrite Rabs_left by lra; lra|apply Rltb_false in O; rewrite Rabs_right by lra; auto].
    - assert (CT : check = true) by (apply K3; auto). rewrite CT. cbn [andb orb negb]. rewrite orb_false_r. destruct (Rltb 0 off) eqn:O; [apply Rltb_spec in O; rewrite Rabs_right by lra; auto|apply Rltb_false in O; rewrite Rabs_left1 by lra; lra]. }
  rewrite RE. set (r' := if Rleb 0 sn then r - off else r + off). destruct (Rltb 0 r'); [auto|]. destruct (radapt s); auto.
Qed.
(** the vectors of the sides *)
Lemma concat_pairs {A} (l : list (list A)) : Forall (fun p => length p = 2%nat) l -> length (concat l) = (2 * length l)%nat /\
  forall i p, nth_error l i = Some p -> exists a b, p = [a; b] /\ nth_error (concat l) (2 * i) = Some a /\ nth_error (concat l) (S (2 * i)) = Some b.
Proof.
  induction 1 as [|x l X F [L N]]; [split; auto; intros [|i] p; discriminate|].
  destruct x as [|a [|b [|c x]]]; try discriminate. cbn [concat app length]. split; [rewrite L; lia|].
  intros [|i] p E; cbn [nth_error] in E.
  - injection E as <-. exists a, b. cbn. auto.
  - apply N in E as (a' & b' & -> & E1 & E2). exists a', b'. replace (2 * S i)%nat with (S (S (2 * i))) by lia. cbn [nth_error]. auto.
Qed.
Definition at_ (s : rls) (vs : list vec2) (k i j : nat) : Prop := forall p q, nth_error (rpts s) i = Some p -> nth_error (rpts s) j = Some q ->
  exists v w, nth_error vs k = Some v /\ nth_error vs (S k) = Some w /\ unit_vector2 (sub2 q p) = Ok v /\ unit_vector2 (sub2 p q) = Ok w.
Lemma vectors_spec s vs : offset_vectors s = Ok vs -> (1 <= length (rpts s))%nat ->
  let n := length (rpts s) in length vs = (2 * (n - 1) + if rclosed s then 2 else 0)%nat /\
  (forall i, (S i < n)%nat -> at_ s vs (2 * i) i (S i)) /\ (rclosed s = true -> at_ s vs (2 * (n - 1)) (n - 1) 0).
Proof.
  intros H N1 n. unfold offset_vectors in H. fold n in H. apply bind_ok in H as (l & Hl & H). apply bind_ok in H as (c & Hc & H). apply Ok_inj in H. subst vs.
  assert (L : length l = (n - 1)%nat) by (apply mapM_length in Hl; rewrite seq_length in Hl; auto).
  assert (F : Forall (fun p => length p = 2%nat) l).
  { apply Forall_forall. intros x X. destruct (mapM_in _ _ _ _ Hl X) as (i & _ & E). repeat (apply bind_ok in E as (? & _ & E)). apply Ok_inj in E. subst. auto. }
  destruct (concat_pairs l F) as [CL CN].
  assert (LC : length c = if rclosed s then 2%nat else 0%nat).
  { destruct (rclosed s); [|apply Ok_inj in Hc; subst; auto]. repeat (apply bind_ok in Hc as (? & _ & Hc)). apply Ok_inj in Hc. subst. auto. }
  split; [rewrite app_length, CL, L, LC; auto|]. split.
  - intros i Hi p q P Q. destruct (mapM_nth _ _ _ i i Hl) as (x & X & E).
    { rewrite nth_error_nth' with (d := 0%nat); [rewrite seq_nth; [f_equal; lia|lia]|rewrite seq_length; lia]. }
    apply CN in X as (a & b & -> & A & B).
    apply bind_ok in E as (p' & P' & E). apply bind_ok in E as (q' & Q' & E). apply geti_ok in P'. apply geti_ok in Q'. replace (i + 1)%nat with (S i) in Q' by lia. rewrite P in P'. rewrite Q in Q'. injection P' as <-. injection Q' as <-.
    apply bind_ok in E as (v & V & E). apply bind_ok in E as (w & W & E). apply Ok_inj in E. injection E as -> ->. exists a, b.
    rewrite !nth_error_app1 by lia. auto.
  - intros C p q P Q. rewrite C in Hc, LC. apply bind_ok in Hc as (p' & P' & E). apply bind_ok in E as (q' & Q' & E). apply geti_ok in P'. unfold getlast in Q'. apply geti_ok in Q'. fold n in Q'. rewrite P in Q'. rewrite Q in P'. injection P' as <-. injection Q' as <-.
    apply bind_ok in E as (v & V & E). apply bind_ok in E as (w & W & E). apply Ok_inj in E. subst c. exists v, w.
    rewrite !nth_error_app2 by lia. rewrite CL, L. replace (2 * (n - 1) - 2 * (n - 1))%nat with 0%nat by lia. replace (S (2 * (n - 1)) - 2 * (n - 1))%nat with 1%nat by lia. auto.
Qed.
(** the normal of a side *)
Lemma normal_of p q u n : unit_vector2 (sub2 q p) = Ok u -> left_normal p q n -> n = normal_vector2 u.
Proof.
  intros U (N1 & N2 & N3). apply unit2_spec in U as (U1 & U2 & U3). apply norm2_1 in N1. apply norm2_1 in U1.
  assert (X : x2 (sub2 q p) = x2 u * norm2 (sub2 q p)) by (pose proof (f_equal x2 U2) as Z; cbn in Z; symmetry; exact Z).
  assert (Y : y2 (sub2 q p) = y2 u * norm2 (sub2 q p)) by (pose proof (f_equal y2 U2) as Z; cbn in Z; symmetry; exact Z).
  set (k := norm2 (sub2 q p)) in *. pose proof U3 as K. unfold dot2 in *. unfold cross2 in N3. rewrite X, Y in N2, N3.
  assert (D : x2 n * x2 u + y2 n * y2 u = 0) by (apply Rmult_eq_reg_l with k; lra).
  assert (C : 0 < x2 u * y2 n - y2 u * x2 n) by nra.
  assert (S1 : (x2 u * y2 n - y2 u * x2 n) * (x2 u * y2 n - y2 u * x2 n) = 1).
  { transitivity ((x2 u * x2 u + y2 u * y2 u) * (x2 n * x2 n + y2 n * y2 n) - (x2 n * x2 u + y2 n * y2 u) * (x2 n * x2 u + y2 n * y2 u)); [ring|rewrite U1, N1, D; ring]. }
  assert (S2 : x2 u * y2 n - y2 u * x2 n = 1) by nra.
  unfold normal_vector2. apply vec2_ext; cbn [x2 y2].
  - transitivity (x2 u * (x2 n * x2 u + y2 n * y2 u) - y2 u * (x2 u * y2 n - y2 u * x2 n)); [transitivity (x2 n * (x2 u * x2 u + y2 u * y2 u)); [rewrite U1; ring|ring]|rewrite D, S2; ring].
  - transitivity (y2 u * (x2 n * x2 u + y2 n * y2 u) + x2 u * (x2 u * y2 n - y2 u * x2 n)); [transitivity (y2 n * (x2 u * x2 u + y2 u * y2 u)); [rewrite U1; ring|ring]|rewrite D, S2; ring].
Qed.

