(** Concrete curves: witnesses for refuted claims and for the hypotheses of the theorems. *)
From Coq Require Import Lia Lra Psatz.
From Verif.Model Require Import RBase Nurbs.
From Verif.Spec Require Import NurbsSpec CurveSpec.
From Verif.Proofs Require Import VecP NurbsP NurbsP2 NurbsP3 BoehmP InsertP KnotsP InsertCurveP SplitP SplitP2 KnotGenP ReverseP.
Open Scope R_scope.

Ltac rdec := repeat match goal with
  | |- context [Rle_dec ?a ?b] => destruct (Rle_dec a b); try lra
  | |- context [Rlt_dec ?a ?b] => destruct (Rlt_dec a b); try lra
  | |- context [Req_EM_T ?a ?b] => destruct (Req_EM_T a b); try lra
  end.
Lemma div0_val x y z : y <> 0 -> x = z * y -> div0 x y = z.
Proof. intros H ->. rewrite div0_nz by assumption. field. assumption. Qed.
(** Sorted lists, checked pairwise. *)
Fixpoint nondecb (l : list R) : Prop := match l with a :: (b :: _) as t => a <= b /\ nondecb t | _ => True end.
Lemma nondecb_sorted l : nondecb l -> sorted_knots l.
Proof.
  induction l as [|a t IH]; intros H i j Hij Hj; [cbn in Hj; lia|].
  destruct t as [|b t']; [cbn in Hj; assert (i = 0 /\ j = 0)%nat as [-> ->] by lia; lra|]. destruct H as [Hab Ht]. specialize (IH Ht).
  destruct i, j; cbn [nth]; try lia; try lra.
  - apply Rle_trans with b; [assumption|]. apply (IH 0%nat j); [lia|cbn [length] in *; lia].
  - apply IH; cbn [length] in *; lia.
Qed.

(** The segment from 0 to 1 with weights 1 and 2. *)
Definition seg12 : bcurve := mkbcurve 1 [[0]; [1]] [2; 2]%nat [0; 1] (Some [1; 2]).
Lemma seg_kv : expand_knots [0; 1] [2; 2]%nat = [0; 0; 1; 1]. Proof. reflexivity. Qed.
Lemma kv0011_valid : valid_kv 1 2 [0; 0; 1; 1].
Proof. split; [reflexivity|]. split; [lia|]. split; [apply nondecb_sorted; cbn; lra|cbn; lra]. Qed.
Lemma seg12_valid : valid_curve seg12.
Proof.
  split; [exact kv0011_valid|]. split; [intros P [<-|[<-|[]]]; reflexivity|]. split; [reflexivity|]. intros x [<-|[<-|[]]]; lra.
Qed.
Lemma cox0011 i : coxdeboor (knots_of [0; 0; 1; 1]) 1 1 i (1/2) = match i with 0%nat => 1/2 | 1%nat => 1/2 | _ => 0 end.
Proof.
  assert (HP : forall i, coxdeboor (knots_of [0; 0; 1; 1]) 1 1 i (1/2) = piece (knots_of [0; 0; 1; 1]) 1 1 i (1/2)).
  { intros j. apply (fvalid_cox _ 1 2 1 (1/2) 1 j (valid_fvalid _ _ _ kv0011_valid)). right. split; [reflexivity|]. cbn. lra. }
  rewrite HP. destruct i as [|[|i]].
  - cbn. rewrite (div0_val _ (1 - 0) (1/2)) by lra. ring.
  - cbn. rewrite (div0_val _ (1 - 0) (1/2)) by lra. ring.
  - apply piece_supp. lia.
Qed.
Lemma reverse_rational_breaks : exists c c' x, valid_curve c /\ normalized c /\ get_reverse c = Ok c' /\ in_domain c x /\ in_domain c' (1 - x) /\
  curve_point c' (1 - x) <> curve_point c x.
Proof.
  destruct (reverse_spec seg12) as (c' & E & V & D & P & W & H).
  - apply seg12_valid.
  - reflexivity.
  - reflexivity.
  - reflexivity.
  - cbn. lra.
  - cbn [bc_degree bc_ctrlpts seg12 length]. unfold knotvector. cbn [bc_knots bc_mults seg12]. rewrite seg_kv. cbn [nth]. intros x Hx.
    assert (occurrences x [0; 0; 1; 1] = 0%nat) as ->; [|lia]. apply occ_none. intros y [<-|[<-|[<-|[<-|[]]]]]; lra.
  - exists seg12, c', (1/2). split; [apply seg12_valid|]. split; [split; reflexivity|]. split; [assumption|].
    assert (I : in_domain seg12 (1/2)) by (unfold in_domain; cbn; lra). split; [assumption|]. destruct (H _ I) as [H1 H2].
    split; [assumption|]. rewrite H2. unfold curve_point. intros X. apply (f_equal (fun l => nth 0 l 0)) in X. revert X.
    cbn [cdim cpt bc_ctrlpts nth length seq map seg12]. unfold curve_at. cbn [bc_degree bc_weights option_map seg12 bc_ctrlpts rev app].
    unfold knotvector. cbn [bc_knots bc_mults]. change (expand_knots [0; 1] [2; 2]%nat) with [0; 0; 1; 1].
    unfold nurbs_coord. cbn [length Nat.sub]. rewrite !Rsum_S, !Rsum_0, !cox0011. cbn [nth]. lra.
Qed.

(** Bezier curves. *)
Definition kv3 := [0; 0; 1/2; 1; 1].
Lemma kv3_valid : valid_kv 1 3 kv3.
Proof. split; [reflexivity|]. split; [lia|]. split; [apply nondecb_sorted; cbn; lra|cbn; lra]. Qed.
Lemma bezier_insert_breaks : exists c c' u, bezier_new 1 [[0]; [1]] = Ok c /\ valid_curve c /\ normalized c /\
   0 < u < 1 /\ insert_knot_bezier c u 1 = Ok c' /\ exists x, in_domain c x /\ in_domain c' x /\ curve_point c' x <> curve_point c x.
Proof.
  assert (G : forall n U, (2 <= n)%nat -> U = repeat 0 1 ++ linspace 0 1 (n + 1 - 1) ++ repeat 1 1 -> generate_knot_vector 1 n true = Ok U).
  { intros n U Hn ->. unfold generate_knot_vector. destruct (Nat.eqb_spec n 0); [lia|]. cbn [Nat.eqb orb]. destruct (Nat.ltb_spec (n + 1) 1); [lia|reflexivity]. }
  assert (G2 : generate_knot_vector 1 2 true = Ok [0; 0; 1; 1]).
  { apply G; [lia|]. rewrite linspace01. cbn [Nat.add Nat.sub seq map repeat app INR]. replace (0 / 1) with 0 by field. replace (1 / 1) with 1 by field. reflexivity. }
  assert (G3 : generate_knot_vector 1 3 true = Ok kv3).
  { apply G; [lia|]. rewrite linspace01. cbn [Nat.add Nat.sub seq map repeat app INR]. unfold kv3. replace (0 / (1 + 1)) with 0 by field. replace ((1 + 1) / (1 + 1)) with 1 by field. replace (1 / (1 + 1)) with (1/2) by field. reflexivity. }
  assert (S2 : forall P ms, bcurve_new 1 P ms [0; 0; 1; 1] None = Ok (mkbcurve 1 P ms [0; 0; 1; 1] None)).
  { intros. unfold bcurve_new, standardize_knot_vector. cbn [last]. unfold Reqb. destruct (Req_EM_T (1 - 0) 0); [lra|]. cbn [map]. replace ((0 - 0) / (1 - 0)) with 0 by field. replace ((1 - 0) / (1 - 0)) with 1 by field. try replace ((1 / 2 - 0) / (1 - 0)) with (1/2) by field. reflexivity. }
  assert (S3 : forall P ms, bcurve_new 1 P ms kv3 None = Ok (mkbcurve 1 P ms kv3 None)).
  { intros. unfold bcurve_new, standardize_knot_vector, kv3. cbn [last]. unfold Reqb. destruct (Req_EM_T (1 - 0) 0); [lra|]. cbn [map]. replace ((0 - 0) / (1 - 0)) with 0 by field. replace ((1 - 0) / (1 - 0)) with 1 by field. try replace ((1 / 2 - 0) / (1 - 0)) with (1/2) by field. reflexivity. }
  set (c := mkbcurve 1 [[0]; [1]] (repeat 1%nat 4) [0; 0; 1; 1] None).
  assert (EK : knotvector c = [0; 0; 1; 1]) by reflexivity.
  assert (FS : find_span_linear 1 [0; 0; 1; 1] 2 (1/4) = 1%nat) by (apply (span_unique 1 2); [apply kv0011_valid|cbn; lra|lia|cbn; lra]).
  assert (FM : find_multiplicity (1/4) [0; 0; 1; 1] = 0%nat).
  { unfold find_multiplicity, find_multiplicity_tol, eps15, Rleb. cbn [filter].
    assert (/ 10 ^ 15 < 1/4) by (apply Rmult_lt_reg_l with (10 ^ 15); [lra|]; rewrite Rinv_r by lra; lra).
    assert (Rabs (1/4 - 0) = 1/4) as -> by (rewrite Rabs_right by lra; lra). assert (Rabs (1/4 - 1) = 3/4) as -> by (rewrite Rabs_left by lra; lra).
    rdec. reflexivity. }
  set (c' := mkbcurve 1 [[0]; [1/4]; [1]] (repeat 1%nat 5) kv3 None).
  assert (EI : knot_insertion 1 [0; 0; 1; 1] [[0]; [1]] (1/4) 1 0 1 = [[0]; [1/4]; [1]]).
  { cbn. unfold knot_insertion_alpha. cbn. match goal with |- [_; [?x]; _] = _ => replace x with (1 / 4) by field end. reflexivity. }
  exists c, c', (1/4). split.
  { unfold bezier_new. cbn [length]. rewrite G2. cbn [bind length repeat]. rewrite S2. reflexivity. }
  split. { split; [exact kv0011_valid|]. split; [intros P [<-|[<-|[]]]; reflexivity|exact I]. }
  split; [split; reflexivity|]. split; [lra|]. split.
  { unfold insert_knot_bezier. rewrite EK. cbn [bc_degree bc_ctrlpts c length]. rewrite FM, FS. cbn [Z.of_nat Z.sub Z.ltb].
    change ((Z.of_nat 1 - Z.of_nat 0 <? Z.of_nat 1)%Z) with false. cbn [bc_ctrlpts c]. rewrite EI. unfold bezier_new. cbn [length]. rewrite G3. cbn [bind]. rewrite S3. reflexivity. }
  exists (1/2). split; [unfold in_domain; cbn; lra|]. split; [unfold in_domain; cbn; lra|].
  intros X. apply (f_equal (fun l => nth 0 l 0)) in X. revert X. unfold curve_point. cbn [cdim cpt bc_ctrlpts nth length seq map c c'].
  unfold curve_at. cbn [bc_degree bc_weights bc_ctrlpts c c']. rewrite EK. change (knotvector c') with kv3.
  rewrite (bspline_piece 1 kv3 _ 0 (1/2) 2); [|exact kv3_valid|right; split; [reflexivity|cbn; lra]].
  unfold bspline_coord. cbn [length Nat.sub]. rewrite !Rsum_S, !Rsum_0, !cox0011. cbn [nth].
  rewrite (piece_supp _ 2 _ 1 0) by lia. cbn.
  rewrite (div0_val (1/2 - 0) (1/2 - 0) 1) by lra. rewrite (div0_val (1 - 1/2) (1 - 1/2) 1) by lra.
  rewrite (div0_val (1/2 - 1/2) (1 - 1/2) 0) by lra. lra.
Qed.

(** A rational quadratic with an interior knot. *)
Definition quad : bcurve := mkbcurve 2 [[0; 0]; [1; 2]; [3; 0]; [4; 1]] [3; 1; 3]%nat [0; 1/2; 1] (Some [1; 2; 1; 3]).
Lemma quad_kv : knotvector quad = [0; 0; 0; 1/2; 1; 1; 1]. Proof. reflexivity. Qed.
Lemma quad_valid : valid_curve quad.
Proof.
  split; [split; [reflexivity|split; [cbn; lia|split; [rewrite quad_kv; apply nondecb_sorted; cbn; lra|cbn; lra]]]|].
  split; [intros P H; cbn in H; repeat destruct H as [<-|H]; try reflexivity; contradiction|].
  split; [reflexivity|]. intros x H; cbn in H; repeat destruct H as [<-|H]; try lra; contradiction.
Qed.
Lemma quad_normalized : normalized quad. Proof. split; reflexivity. Qed.
Lemma quad_clamped : clamped_kv 2 4 (knotvector quad).
Proof.
  rewrite quad_kv. split; [|split].
  - intros i Hi. destruct i as [|[|[|i]]]; [reflexivity..|lia].
  - intros i Hi. destruct i as [|[|[|[|[|[|[|i]]]]]]]; try lia; reflexivity.
  - cbn. lra.
Qed.
Lemma eps15_small : / 10 ^ 15 < 1/8.
Proof. apply Rmult_lt_reg_l with (10 ^ 15); [lra|]; rewrite Rinv_r by lra; lra. Qed.
Lemma quad_distinguishable u : u = 1/4 \/ u = 1/2 -> distinguishable quad u.
Proof.
  intros Hu x Hx k Hk. rewrite quad_kv in *. pose proof eps15_small.
  assert (G : forall a b, (a = 0 \/ a = 1/4 \/ a = 1/2 \/ a = 1) -> (b = 0 \/ b = 1/4 \/ b = 1/2 \/ b = 1) -> b = a \/ Rabs (a - b) > / 10 ^ 15).
  { intros a b Ha Hb. destruct (Req_EM_T b a); [left; assumption|]. right. unfold Rabs. destruct (Rcase_abs (a - b)); destruct Ha as [-> |[-> |[-> | ->]]], Hb as [-> |[-> |[-> | ->]]]; lra. }
  apply G; [clear Hk|clear Hx]; cbn in *; destruct Hu as [-> | ->]; intuition (subst; auto).
Qed.
Lemma quad_mult : occurrences (1/4) (knotvector quad) = 0%nat /\ occurrences (1/2) (knotvector quad) = 1%nat.
Proof.
  rewrite quad_kv. unfold occurrences. cbn. split; repeat match goal with |- context [Req_EM_T ?a ?b] => destruct (Req_EM_T a b); try lra end; reflexivity.
Qed.
Lemma quad_inner : forall x, nth 2 (knotvector quad) 0 < x < nth 4 (knotvector quad) 0 -> (occurrences x (knotvector quad) <= 2)%nat.
Proof.
  rewrite quad_kv. cbn [nth]. intros x Hx. unfold occurrences. cbn. repeat match goal with |- context [Req_EM_T ?a ?b] => destruct (Req_EM_T a b); try lra end; lia.
Qed.
