(** split_curve on curve objects. *)
From Coq Require Import Lia Lra Psatz Permutation.
From Verif.Model Require Import RBase Nurbs.
From Verif.Spec Require Import NurbsSpec CurveSpec.
From Verif.Proofs Require Import VecP NurbsP NurbsP2 NurbsP3 BoehmP InsertP KnotsP InsertCurveP SplitP.
Open Scope R_scope.

Lemma skipn_combine {A B} k : forall (l : list A) (l' : list B), skipn k (combine l l') = combine (skipn k l) (skipn k l').
Proof. induction k; intros [|x l] [|y l']; cbn; auto. destruct (skipn k l); reflexivity. Qed.
Lemma ctrlptsw_firstn k P w : ctrlptsw (firstn k P) (firstn k w) = firstn k (ctrlptsw P w).
Proof. unfold ctrlptsw. rewrite firstn_map, combine_firstn. reflexivity. Qed.
Lemma skipn_map' {A B} (f : A -> B) k : forall l, skipn k (map f l) = map f (skipn k l).
Proof. induction k; intros [|x l]; cbn; auto. Qed.
Lemma ctrlptsw_skipn k P w : ctrlptsw (skipn k P) (skipn k w) = skipn k (ctrlptsw P w).
Proof. unfold ctrlptsw. rewrite skipn_map', skipn_combine. reflexivity. Qed.

(** A curve denoting, after the affine change f, the same points as t on a set of parameters. *)
Lemma same_points t c' sub (f : R -> R) x : valid_curve t ->
  bc_degree c' = bc_degree t -> cdim c' = cdim t -> bc_ctrlpts c' = sub (bc_ctrlpts t) ->
  (forall Q, In Q (sub (bc_ctrlpts t)) -> In Q (bc_ctrlpts t)) ->
  match bc_weights t with
  | Some w => exists w', bc_weights c' = Some w' /\ length w' = length (bc_ctrlpts c') /\ ctrlptsw (sub (bc_ctrlpts t)) w' = sub (ctrlptsw (bc_ctrlpts t) w)
  | None => bc_weights c' = None
  end ->
  (forall P, length P = length (bc_ctrlpts t) -> forall j, bspline_coord (bc_degree t) (knotvector c') (sub P) j (f x) = bspline_coord (bc_degree t) (knotvector t) P j x) ->
  curve_point c' (f x) = curve_point t x.
Proof.
  intros (HV & HD & HW) E1 E2 E3 HI EW HB. unfold curve_point. rewrite E2. apply map_ext_in. intros j Hj. apply in_seq in Hj.
  unfold curve_at. rewrite E1, E3. destruct (bc_weights t) as [w|].
  - destruct EW as (w' & -> & HL & Ew). destruct HW as [HL0 _]. unfold nurbs_coord. rewrite E3 in HL.
    rewrite <- (bspline_coord_w _ _ (sub (bc_ctrlpts t)) w' (cdim t)) by (auto; lia).
    rewrite <- (bspline_weight_w _ _ (sub (bc_ctrlpts t)) w' (cdim t)) by (auto; lia).
    rewrite <- (bspline_coord_w _ _ (bc_ctrlpts t) w (cdim t)) by (auto; lia).
    rewrite <- (bspline_weight_w _ _ (bc_ctrlpts t) w (cdim t)) by (auto; lia).
    rewrite Ew. rewrite !HB by (apply ctrlptsw_length; assumption). reflexivity.
  - rewrite EW. apply HB. reflexivity.
Qed.

Lemma cut_curve t u k : valid_curve t -> normalized t -> distinguishable t u ->
  (1 <= bc_degree t)%nat -> nth (bc_degree t) (knotvector t) 0 < u ->
  (bc_degree t <= k < length (bc_ctrlpts t))%nat -> nth k (knotvector t) 0 = u /\ u < nth (k + 1) (knotvector t) 0 ->
  (forall i, (k - bc_degree t < i <= k)%nat -> nth i (knotvector t) 0 = u) -> nth (k - bc_degree t) (knotvector t) 0 < u ->
  exists c1 c2, construct_split_curve t (firstn (k + 1) (knotvector t) ++ [u]) (repeat u (bc_degree t + 1) ++ skipn (k + 1) (knotvector t)) (k - bc_degree t + 1) = Ok (c1, c2)
    /\ split_ok t c1 c2 u.
Proof.
  intros HVC [HN0 HN1] HS Hp1 Hup Hk Hku Hrun Hbef. pose proof HVC as (HV & HD & HW). pose proof HV as (HL & Hp & Hso & Hl).
  set (U := knotvector t) in *. set (p := bc_degree t) in *. set (P := bc_ctrlpts t) in *. set (n := length P) in *.
  pose proof (kv1_valid p U n k u Hp1 HV Hk Hku Hrun Hbef Hup) as V1.
  pose proof (kv2_valid p U n k u Hp1 HV Hk Hrun) as V2.
  set (kv1 := firstn (k + 1) U ++ [u]) in *. set (kv2 := repeat u (p + 1) ++ skipn (k + 1) U) in *.
  assert (EN1 : hd 0 kv1 = 0 /\ last kv1 0 = u).
  { pose proof (kv1_ends p U n k u Hp1 HV Hk) as X. fold kv1 in X. rewrite HN0 in X. exact X. }
  assert (EN2 : hd 0 kv2 = u /\ last kv2 0 = 1).
  { pose proof (kv2_ends p U n k u Hp1 HV Hk) as X. fold kv2 in X. rewrite HN1 in X. exact X. }
  destruct EN1 as [EN1a EN1b], EN2 as [EN2a EN2b].
  assert (U0 : 0 < u). { assert (nth 0 U 0 <= nth p U 0) by (apply Hso; lia). lra. }
  assert (U1 : u < 1). { assert (nth (k + 1) U 0 <= last U 0) by (apply nondec_last; [apply sorted_nondec, Hso|apply nth_In; lia]). lra. }
  assert (S1 : separated eps15 kv1) by (eapply separated_incl; [intros x Hx; apply (kv1_in U k u x Hx)|exact HS]).
  assert (S2 : separated eps15 kv2) by (eapply separated_incl; [intros x Hx; apply (kv2_in p U k u x Hx)|exact HS]).
  unfold construct_split_curve. fold p P.
  set (n1 := (k - p + 1)%nat) in *. set (o := (k - p)%nat) in *. replace (n1 - 1)%nat with o by (unfold n1, o; lia).
  destruct (rebuild p (firstn n1 P) (option_map (firstn n1) (bc_weights t)) kv1 S1) as (c1 & A1 & A2 & A3 & A4 & A5); [apply V1|lra|].
  destruct (rebuild p (skipn o P) (option_map (skipn o) (bc_weights t)) kv2 S2) as (c2 & B1 & B2 & B3 & B4 & B5); [apply V2|lra|].
  destruct (get_knots_and_multiplicities kv1) as [k1 m1]. destruct (get_knots_and_multiplicities kv2) as [k2 m2]. cbn [fst snd] in *.
  rewrite A1. cbn [bind]. rewrite B1. cbn [bind]. exists c1, c2. split; [reflexivity|].
  rewrite EN1a, EN1b in A2. rewrite EN2a, EN2b in B2.
  change (fun k0 : R => (k0 - 0) / (u - 0)) with (aff 0 (u - 0)) in A2. change (fun k0 : R => (k0 - u) / (1 - u)) with (aff u (1 - u)) in B2.
  assert (L1 : length (firstn n1 P) = n1) by (rewrite firstn_length; fold n; unfold n1; lia).
  assert (L2 : length (skipn o P) = (n - o)%nat) by (rewrite skipn_length; reflexivity).
  assert (Hin1 : forall Q, In Q (firstn n1 P) -> In Q P) by (intros Q HQ; rewrite <- (firstn_skipn n1 P); apply in_or_app; auto).
  assert (Hin2 : forall Q, In Q (skipn o P) -> In Q P) by (intros Q HQ; rewrite <- (firstn_skipn o P); apply in_or_app; auto).
  assert (D1 : cdim c1 = cdim t). { unfold cdim at 1. rewrite A4. apply HD, Hin1, nth_In. rewrite L1. unfold n1; lia. }
  assert (D2 : cdim c2 = cdim t). { unfold cdim at 1. rewrite B4. apply HD, Hin2, nth_In. rewrite L2. unfold o; lia. }
  assert (V1' : valid_kv p n1 (knotvector c1)) by (rewrite A2; apply valid_aff; [lra|exact V1]).
  assert (V2' : valid_kv p (n - o) (knotvector c2)) by (rewrite B2; apply valid_aff; [lra|exact V2]).
  assert (W1 : match bc_weights t with
    | Some w => bc_weights c1 = Some (firstn n1 w) /\ bc_weights c2 = Some (skipn o w) /\ length (firstn n1 w) = n1 /\ length (skipn o w) = (n - o)%nat /\
         (forall x, In x (firstn n1 w) -> 0 < x) /\ (forall x, In x (skipn o w) -> 0 < x)
    | None => bc_weights c1 = None /\ bc_weights c2 = None end).
  { destruct (bc_weights t) as [w|]; cbn [option_map] in A5, B5; [|cbn in A5, B5; auto]. destruct HW as [HWl HWp]. fold P n in HWl.
    assert (Lw1 : length (firstn n1 w) = n1) by (rewrite firstn_length; unfold n1; lia).
    assert (Lw2 : length (skipn o w) = (n - o)%nat) by (rewrite skipn_length; lia).
    assert (P1 : forall x, In x (firstn n1 w) -> 0 < x) by (intros x Hx; apply HWp; rewrite <- (firstn_skipn n1 w); apply in_or_app; auto).
    assert (P2 : forall x, In x (skipn o w) -> 0 < x) by (intros x Hx; apply HWp; rewrite <- (firstn_skipn o w); apply in_or_app; auto).
    rewrite keep_pos in A5 by (auto; intros E; rewrite E in Lw1; cbn in Lw1; unfold n1 in Lw1; lia).
    rewrite keep_pos in B5 by (auto; intros E; rewrite E in Lw2; cbn in Lw2; unfold o in Lw2; lia). repeat split; auto. }
  assert (LK1 : length kv1 = (n1 + p + 1)%nat) by apply V1. assert (LK2 : length kv2 = (n - o + p + 1)%nat) by apply V2.
  split; [|split; [|split; [|split; [|split; [|split; [|split; [|split; [|split]]]]]]]]; auto.
  - unfold valid_curve. rewrite A3, A4, D1, L1. split; [assumption|]. split; [intros Q HQ; apply HD, Hin1, HQ|].
    destruct (bc_weights t) as [w|]; destruct W1 as [-> W]; [split; tauto|trivial].
  - unfold valid_curve. rewrite B3, B4, D2, L2. split; [assumption|]. split; [intros Q HQ; apply HD, Hin2, HQ|].
    destruct (bc_weights t) as [w|]; [destruct W1 as (_ & -> & W); split; tauto|destruct W1 as [_ ->]; trivial].
  - unfold normalized. rewrite A2. rewrite nth_map_lt by lia. rewrite nth_hd, EN1a. split; [unfold aff; field; lra|].
    destruct (@exists_last _ kv1) as (l & x & E); [intros E; rewrite E in LK1; cbn in LK1; lia|]. rewrite E in EN1b |- *.
    rewrite map_app, last_last in *. cbn [map]. rewrite last_last. subst x. unfold aff. field. lra.
  - unfold normalized. rewrite B2. rewrite nth_map_lt by lia. rewrite nth_hd, EN2a. split; [unfold aff; field; lra|].
    destruct (@exists_last _ kv2) as (l & x & E); [intros E; rewrite E in LK2; cbn in LK2; lia|]. rewrite E in EN2b |- *.
    rewrite map_app, last_last in *. cbn [map]. rewrite last_last. subst x. unfold aff. field. lra.
  - intros x Hx Hxu. unfold in_domain in Hx. fold p P U n in Hx.
    assert (EX : x / u = aff 0 (u - 0) x) by (unfold aff; field; lra). rewrite EX. split.
    + unfold in_domain. rewrite A2, A3, A4, L1. rewrite !nth_map_lt by lia.
      pose proof (kv1_nth p U n k u Hp1 HV Hk) as X. fold kv1 in X. pose proof (k_2p p U n k u Hp1 Hk Hrun Hup).
      rewrite !X by (unfold n1; lia). rewrite (Hrun n1) by (unfold n1; lia). split; apply aff_le; lra.
    + apply (same_points t c1 (firstn n1) (aff 0 (u - 0)) x); auto.
      * destruct (bc_weights t) as [w|]; [|tauto]. exists (firstn n1 w). fold P. rewrite A4. split; [tauto|]. split; [rewrite L1; tauto|apply ctrlptsw_firstn].
      * intros P' HP' j. fold p U. rewrite A2. apply (half1 p U n k u); auto; lra.
  - intros x Hx Hxu. unfold in_domain in Hx. fold p P U n in Hx.
    change ((x - u) / (1 - u)) with (aff u (1 - u) x). split.
    + unfold in_domain. rewrite B2, B3, B4, L2. rewrite !nth_map_lt by lia.
      pose proof (kv2_nth p U n k u Hp1 Hk Hrun) as X. fold kv2 in X. fold o in X. rewrite !X by (unfold o; lia).
      replace (n - o + o)%nat with n by (unfold o; lia). rewrite (Hrun (p + o)%nat) by (unfold o; lia). split; apply aff_le; lra.
    + apply (same_points t c2 (skipn o) (aff u (1 - u)) x); auto.
      * destruct (bc_weights t) as [w|]; [|tauto]. exists (skipn o w). fold P. rewrite B4. split; [tauto|]. split; [rewrite L2; tauto|apply ctrlptsw_skipn].
      * intros P' HP' j. fold p U. rewrite B2. apply (half2 p U n k u); auto; lra.
Qed.

Lemma span_unique p n U u k : valid_kv p n U -> nth p U 0 <= u < nth n U 0 -> (k < n)%nat -> nth k U 0 <= u < nth (k + 1) U 0 ->
  find_span_linear p U n u = k.
Proof.
  intros HV Hu Hk Hku. destruct (find_span_linear_domain p n U u HV Hu) as [A B]. pose proof HV as (HL & Hp & Hso & Hl).
  set (s := find_span_linear p U n u) in *. destruct (lt_eq_lt_dec s k) as [[H|H]|H]; [|assumption|].
  - assert (nth (s + 1) U 0 <= nth k U 0) by (apply Hso; lia). lra.
  - assert (nth (k + 1) U 0 <= nth s U 0) by (apply Hso; lia). lra.
Qed.
Lemma kv_insertion_0 U u k : (k < length U)%nat -> knot_insertion_kv U u k 0 = U.
Proof. intros H. rewrite kv_insertion_explicit by assumption. cbn. apply firstn_skipn. Qed.

Lemma split_spec c u : valid_curve c -> normalized c -> distinguishable c u -> (1 <= bc_degree c)%nat ->
  nth (bc_degree c) (knotvector c) 0 < u < nth (length (bc_ctrlpts c)) (knotvector c) 0 ->
  (occurrences u (knotvector c) <= bc_degree c)%nat ->
  exists c1 c2, split_curve c u = Ok (c1, c2) /\ split_ok c c1 c2 u.
Proof.
  intros HVC HN HS Hp1 Hu Hocc.
  destruct (span_data c u HVC HS ltac:(lra)) as (Hmul & Hk & Hku & Hs1 & Hrun & Hbef). cbn zeta in *.
  pose proof HVC as (HV & HD & HW). pose proof HV as (HL & Hp & Hso & Hl).
  set (U := knotvector c) in *. set (p := bc_degree c) in *. set (P := bc_ctrlpts c) in *. set (n := length P) in *.
  set (s := occurrences u U) in *. set (k := find_span_linear p U n u) in *. set (r := (p - s)%nat).
  assert (HT : exists t, insert_knot_curve c u r false = Ok t /\ valid_curve t /\ normalized t /\ bc_degree t = p /\ cdim t = cdim c /\
     length (bc_ctrlpts t) = (n + r)%nat /\ knotvector t = knot_insertion_kv U u k r /\
     (forall x, in_domain c x -> in_domain t x /\ curve_point t x = curve_point c x)).
  { destruct (Nat.eq_dec r 0) as [E|E].
    - exists c. rewrite E. split; [reflexivity|]. split; [assumption|]. split; [assumption|]. split; [reflexivity|]. split; [reflexivity|].
      split; [fold P n; lia|]. split; [rewrite kv_insertion_0 by lia; reflexivity|auto].
    - destruct (insert_full c u r false HVC HN HS) as (t & T); [fold U p P n; lra|lia|fold U p s; unfold r in *; lia|]. cbn zeta in T. fold U p P n k in T.
      exists t. tauto. }
  destruct HT as (t & T1 & T2 & T3 & T4 & T5 & T6 & T7 & T8).
  assert (KT : forall i, nth i (knotvector t) 0 = insR (knots_of U) k r u i) by (intros i; rewrite T7; apply (kv_knots_of U u k r i); lia).
  assert (SEP : distinguishable t u).
  { unfold distinguishable in *. eapply separated_incl; [|exact HS]. intros x [<- |Hx]; [left; reflexivity|]. rewrite T7 in Hx. eapply kv_insertion_in; [|exact Hx]. fold U. lia. }
  assert (Hrun' : forall i, (k + r - p < i <= k + r)%nat -> nth i (knotvector t) 0 = u).
  { intros i Hi. rewrite KT. destruct (le_dec i k); [rewrite insR_le by lia; apply Hrun; unfold r in *; lia|apply insR_mid; lia]. }
  assert (Hafter : u < nth (k + r + 1) (knotvector t) 0).
  { rewrite KT, insR_gt by lia. replace (k + r + 1 - r)%nat with (k + 1)%nat by lia. apply Hku. }
  assert (KP : nth p (knotvector t) 0 = nth p U 0) by (rewrite KT; apply insR_le; lia).
  assert (KN : nth (n + r) (knotvector t) 0 = nth n U 0) by (rewrite KT, insR_gt by lia; unfold knots_of; f_equal; lia).
  destruct (cut_curve t u (k + r)) as (c1 & c2 & C1 & C2); rewrite ?T4, ?T6; auto.
  - rewrite KP. lra.
  - lia.
  - split; [apply Hrun'; lia|assumption].
  - rewrite KT, insR_le by (unfold r; lia). apply Hbef. unfold r; lia.
  - exists c1, c2. split.
    + unfold split_curve. fold U p P n k. rewrite Hmul. fold s r.
      assert (D1 : Reqb u (fst (domain c)) = false).
      { destruct (Reqb u (fst (domain c))) eqn:E; [|reflexivity]. apply Reqb_spec in E. cbn in E. fold U p in E. unfold kn in E. lra. }
      assert (D2 : Reqb u (snd (domain c)) = false).
      { destruct (Reqb u (snd (domain c))) eqn:E; [|reflexivity]. apply Reqb_spec in E. unfold domain in E. cbn in E. fold U p in E. unfold kn in E. rewrite HL in E.
        replace (n + p + 1 - (p + 1))%nat with n in E by lia. lra. }
      rewrite D1, D2. cbn [orb]. rewrite T1. cbn [bind]. unfold helper_split_knot_vectors. rewrite T4, T6.
      assert (SP : find_span_linear p (knotvector t) (n + r) u = (k + r)%nat).
      { apply span_unique; [rewrite <- T4, <- T6; apply T2|rewrite KP, KN; lra|lia|]. split; [rewrite Hrun' by lia; lra|assumption]. }
      rewrite SP. replace (k - p + 1 + r)%nat with (k + r - p + 1)%nat by lia. rewrite T4 in C1. exact C1.
    + destruct C2 as (X1 & X2 & X3 & X4 & X5 & X6 & X7 & X8 & X9 & X10). rewrite T4 in X5, X6. rewrite T5 in X7, X8.
      split; [assumption|]. split; [assumption|]. split; [assumption|]. split; [assumption|]. split; [assumption|]. split; [assumption|].
      split; [assumption|]. split; [assumption|]. split.
      * intros x Hx Hxu. destruct (T8 x Hx) as [Hx' E]. rewrite <- E. apply X9; assumption.
      * intros x Hx Hxu. destruct (T8 x Hx) as [Hx' E]. rewrite <- E. apply X10; assumption.
Qed.

Lemma split_ends c u : u = fst (domain c) \/ u = snd (domain c) -> split_curve c u = Err ValueError.
Proof.
  intros [H|H]; unfold split_curve.
  - assert (Reqb u (fst (domain c)) = true) as -> by (apply Reqb_spec; assumption). reflexivity.
  - assert (Reqb u (snd (domain c)) = true) as -> by (apply Reqb_spec; assumption). rewrite orb_true_r. reflexivity.
Qed.
