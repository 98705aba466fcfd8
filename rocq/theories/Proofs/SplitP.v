(** insert_knot_curve (errors, partial insertion) and split_curve. *)
From Coq Require Import Lia Lra Psatz Permutation.
From Verif.Model Require Import RBase Nurbs.
From Verif.Spec Require Import NurbsSpec CurveSpec.
From Verif.Proofs Require Import VecP NurbsP NurbsP2 NurbsP3 BoehmP InsertP KnotsP InsertCurveP.
Open Scope R_scope.

Lemma insert_zero c u b : insert_knot_curve c u 0 b = Ok c.
Proof. reflexivity. Qed.
Lemma insert_too_many c u num : separated_from eps15 u (knotvector c) ->
  (bc_degree c < occurrences u (knotvector c) + num)%nat -> (1 <= num)%nat -> insert_knot_curve c u num true = Err ValueError.
Proof.
  intros HS Hn H1. unfold insert_knot_curve. destruct num; [lia|]. rewrite (find_multiplicity_occ u (knotvector c) HS).
  cbn [andb]. rewrite (proj2 (Z.ltb_lt _ _)) by lia. reflexivity.
Qed.
(** Fewer insertions than degree - multiplicity: one control point too many. *)
Lemma insert_partial_breaks c u num b : valid_curve c -> normalized c -> distinguishable c u ->
  nth (bc_degree c) (knotvector c) 0 <= u < nth (length (bc_ctrlpts c)) (knotvector c) 0 ->
  (1 <= num)%nat -> (occurrences u (knotvector c) + num < bc_degree c)%nat ->
  exists c', insert_knot_curve c u num b = Ok c' /\ bc_degree c' = bc_degree c /\
    length (knotvector c') = (length (knotvector c) + num)%nat /\
    length (bc_ctrlpts c') = (length (bc_ctrlpts c) + num + 1)%nat /\ ~ valid_curve c'.
Proof.
  intros HVC [HN0 HN1] HS Hu Hnum Hfull.
  destruct (span_data c u HVC HS Hu) as (Hmul & Hk & Hku & Hs1 & Hrun & _). cbn zeta in *.
  pose proof HVC as (HV & HD & HW). pose proof HV as (HL & Hp & Hso & Hl).
  set (U := knotvector c) in *. set (p := bc_degree c) in *. set (P := bc_ctrlpts c) in *. set (n := length P) in *.
  set (s := occurrences u U) in *. set (k := find_span_linear p U n u) in *. set (kv := knot_insertion_kv U u k num).
  assert (HVk : valid_kv p (n + num) kv) by (apply kv_insertion_valid; [assumption|lia|assumption]).
  pose proof (kv_insertion_ends U u k num ltac:(lia)) as [E0 E1]. fold kv in E0, E1.
  assert (HSk : separated eps15 kv) by (eapply separated_incl; [intros x Hx; eapply kv_insertion_in; [|exact Hx]; lia|exact HS]).
  assert (Hrun' : forall i, (k - s < i <= k)%nat -> nth i U 0 = u) by (intros; apply Hrun; lia).
  pose proof HVk as (HLk & Hpk & Hsok & Hlk).
  assert (Hch : b && (Z.of_nat p - Z.of_nat s <? Z.of_nat num)%Z = false) by (destruct b; [apply Z.ltb_ge; lia|reflexivity]).
  assert (LK : forall P', length P' = n -> (forall Q, In Q P' -> length Q = length (cpt P' 0)) -> length (knot_insertion p U P' u num s k) = (n + num + 1)%nat).
  { intros P' HP' HD'. rewrite (knot_insertion_spec p U P' u num s k); rewrite ?HP'; auto; [|apply valid_fvalid, HV|lia].
    destruct (Nat.eqb_spec (s + num) p); [lia|]. rewrite app_length, !map_length, !seq_length. lia. }
  unfold insert_knot_curve. fold U p P n k kv. destruct num as [|num']; [lia|]. set (num := S num') in *. rewrite Hmul. fold s. rewrite Hch.
  assert (FIN : forall P' w, length P' = (n + num + 1)%nat -> exists c', bcurve_new p P' (snd (get_knots_and_multiplicities kv)) (fst (get_knots_and_multiplicities kv)) w = Ok c' /\
     bc_degree c' = p /\ length (knotvector c') = (length U + num)%nat /\ length (bc_ctrlpts c') = (n + num + 1)%nat /\ ~ valid_curve c').
  { intros P' w HP'. destruct (rebuild01 p P' w kv HSk Hsok) as (c' & R1 & R2 & R3 & R4 & R5); [rewrite E0, <- nth_hd; exact HN0|rewrite E1; exact HN1|].
    exists c'. split; [assumption|]. split; [assumption|]. rewrite R2, R4. split; [lia|]. split; [assumption|].
    intros ((X & _) & _). rewrite R2, R3, R4 in X. lia. }
  destruct (bc_weights c) as [w|] eqn:EW.
  - destruct HW as [HWl HWp]. fold P in HWl.
    assert (LP : length (ctrlptsw P w) = n) by (apply ctrlptsw_length; assumption).
    assert (DP : dims (cdim c + 1) (ctrlptsw P w)) by (apply ctrlptsw_dims; exact HD).
    assert (L := LK (ctrlptsw P w) LP). rewrite <- (proj1 (sep_len _)) in L.
    destruct (separate_ctrlpts_weights (knot_insertion p U (ctrlptsw P w) u num s k)) as [Pn wn]. cbn [fst] in L.
    destruct (FIN Pn (Some wn)) as (c' & X); [apply L; intros Q HQ; rewrite !DP; auto; apply nth_In; lia|].
    destruct (get_knots_and_multiplicities kv). exists c'. exact X.
  - destruct (FIN (knot_insertion p U P u num s k) None) as (c' & X); [apply LK; auto|].
    destruct (get_knots_and_multiplicities kv). exists c'. exact X.
Qed.

(** ** Pieces only depend on the knots around their span *)
Lemma piece_local U V s x : forall p i, (forall j, (s + 1 - p <= j <= s + p)%nat -> U j = V j) -> piece U s p i x = piece V s p i x.
Proof.
  induction p; intros i H; [reflexivity|]. cbn [piece].
  assert (H' : forall j, (s + 1 - p <= j <= s + p)%nat -> U j = V j) by (intros; apply H; lia).
  rewrite !(IHp _ H').
  assert (A : div0 (x - U i) (U (i + S p)%nat - U i) * piece V s p i x = div0 (x - V i) (V (i + S p)%nat - V i) * piece V s p i x).
  { destruct (le_dec i s); [destruct (le_dec s (i + p))|].
    - rewrite !(H i), !(H (i + S p)%nat) by lia. reflexivity.
    - rewrite (piece_supp V s x p i) by lia. ring.
    - rewrite (piece_supp V s x p i) by lia. ring. }
  assert (B : div0 (U (i + S p + 1)%nat - x) (U (i + S p + 1)%nat - U (i + 1)%nat) * piece V s p (i + 1) x
            = div0 (V (i + S p + 1)%nat - x) (V (i + S p + 1)%nat - V (i + 1)%nat) * piece V s p (i + 1) x).
  { destruct (le_dec (i + 1) s); [destruct (le_dec s (i + 1 + p))|].
    - rewrite !(H (i + 1)%nat), !(H (i + S p + 1)%nat) by lia. reflexivity.
    - rewrite (piece_supp V s x p (i + 1)) by lia. ring.
    - rewrite (piece_supp V s x p (i + 1)) by lia. ring. }
  rewrite A, B. reflexivity.
Qed.
Lemma piece_shift U o s x : forall p i, piece (fun j => U (j + o)%nat) s p i x = piece U (s + o) p (i + o) x.
Proof.
  induction p; intros i; cbn [piece].
  - destruct (Nat.eq_dec i s), (Nat.eq_dec (i + o) (s + o)); auto; lia.
  - rewrite !IHp. replace (i + 1 + o)%nat with (i + o + 1)%nat by lia. replace (i + S p + o)%nat with (i + o + S p)%nat by lia.
    replace (i + S p + 1 + o)%nat with (i + o + S p + 1)%nat by lia. reflexivity.
Qed.
Definition aff (a d x : R) : R := (x - a) / d.
Lemma div0_aff a d x y z w : 0 < d -> div0 (aff a d x - aff a d y) (aff a d z - aff a d w) = div0 (x - y) (z - w).
Proof.
  intros Hd. unfold aff. replace ((z - a) / d - (w - a) / d) with ((z - w) / d) by (field; lra).
  replace ((x - a) / d - (y - a) / d) with ((x - y) / d) by (field; lra).
  unfold div0. destruct (Req_EM_T (z - w) 0) as [E|E].
  - rewrite E. destruct (Req_EM_T (0 / d) 0) as [|X]; [reflexivity|]. exfalso. apply X. unfold Rdiv. ring.
  - destruct (Req_EM_T ((z - w) / d) 0) as [E2|E2].
    + exfalso. apply E. apply Rmult_eq_reg_r with (/ d); [|apply Rinv_neq_0_compat; lra]. unfold Rdiv in E2. lra.
    + field. split; [assumption|lra].
Qed.
Lemma piece_aff U a d s x : 0 < d -> forall p i, piece (fun j => aff a d (U j)) s p i (aff a d x) = piece U s p i x.
Proof.
  intros Hd p. induction p; intros i; cbn [piece]; [reflexivity|]. rewrite !IHp, !div0_aff by assumption. reflexivity.
Qed.

(** Coordinates as sums of pieces. *)
Lemma bspline_piece p U P j x s : valid_kv p (length P) U -> in_span (knots_of U) (length P - 1) s x ->
  bspline_coord p U P j x = Rsum (fun i => piece (knots_of U) s p i x * nth j (nth i P []) 0) (length P).
Proof.
  intros HV Hin. unfold bspline_coord. apply Rsum_ext. intros i Hi. rewrite (fvalid_cox _ p (length P) s x p i (valid_fvalid _ _ _ HV) Hin). reflexivity.
Qed.
Lemma aff_le a d x y : 0 < d -> aff a d x <= aff a d y <-> x <= y.
Proof. intros Hd. unfold aff, Rdiv. pose proof (Rinv_0_lt_compat d Hd). split; intros H1; nra. Qed.
Lemma aff_lt a d x y : 0 < d -> aff a d x < aff a d y <-> x < y.
Proof. intros Hd. unfold aff, Rdiv. pose proof (Rinv_0_lt_compat d Hd). split; intros H1; nra. Qed.
Lemma nth_map_lt (f : R -> R) l i : (i < length l)%nat -> nth i (map f l) 0 = f (nth i l 0).
Proof. intros H. rewrite (nth_indep _ 0 (f 0)) by (rewrite map_length; assumption). apply map_nth. Qed.

Lemma valid_aff q m V a d : 0 < d -> valid_kv q m V -> valid_kv q m (map (aff a d) V).
Proof.
  intros Hd (HL & Hp & Hso & Hl). split; [rewrite map_length; assumption|]. split; [assumption|]. split.
  - intros i j Hij Hj. rewrite map_length in Hj. rewrite !nth_map_lt by lia. apply aff_le; [assumption|apply Hso; assumption].
  - rewrite !nth_map_lt by lia. apply aff_lt; assumption.
Qed.
Lemma in_span_aff m V a d s x : 0 < d -> (m + 1 < length V)%nat -> (s <= m)%nat -> in_span (knots_of V) m s x ->
  in_span (knots_of (map (aff a d) V)) m s (aff a d x).
Proof.
  intros Hd HL Hs [[H1 H2]|[-> H2]]; unfold knots_of in *; [left|right]; rewrite !nth_map_lt by lia; (split; [assumption || reflexivity|]).
  - split; [apply aff_le|apply aff_lt]; tauto.
  - split; apply aff_le; tauto.
Qed.
Lemma piece_aff_list V a d s q i x : 0 < d -> (s + q < length V)%nat ->
  piece (knots_of (map (aff a d) V)) s q i (aff a d x) = piece (knots_of V) s q i x.
Proof.
  intros Hd HL. rewrite (piece_local _ (fun j => aff a d (knots_of V j))).
  - apply piece_aff. assumption.
  - intros j Hj. unfold knots_of. apply nth_map_lt. lia.
Qed.

(** The two halves of a knot vector in which u has multiplicity p and span k. *)
Section Halves.
Variables (p : nat) (U : list R) (n k : nat) (u : R).
Hypothesis Hp1 : (1 <= p)%nat.
Hypothesis HV : valid_kv p n U.
Hypothesis Hk : (p <= k < n)%nat.
Hypothesis Hku : nth k U 0 = u /\ u < nth (k + 1) U 0.
Hypothesis Hrun : forall i, (k - p < i <= k)%nat -> nth i U 0 = u.
Hypothesis Hbef : nth (k - p) U 0 < u.
Hypothesis Hup : nth p U 0 < u.
Let kv1 := firstn (k + 1) U ++ [u].
Let kv2 := repeat u (p + 1) ++ skipn (k + 1) U.
Let n1 := (k - p + 1)%nat.
Let o := (k - p)%nat.
Let n2 := (n - o)%nat.

Lemma k_2p : (2 * p <= k)%nat.
Proof. destruct (le_dec (2 * p) k); [assumption|]. exfalso. assert (nth p U 0 = u) by (apply Hrun; lia). lra. Qed.
Lemma kv1_len : length kv1 = (n1 + p + 1)%nat.
Proof. pose proof HV as (HL & _). unfold kv1, n1. rewrite app_length, firstn_length. cbn. lia. Qed.
Lemma kv2_len : length kv2 = (n2 + p + 1)%nat.
Proof. pose proof HV as (HL & _). unfold kv2, n2, o. rewrite app_length, repeat_length, skipn_length. lia. Qed.
Lemma kv1_nth i : (i <= k)%nat -> nth i kv1 0 = nth i U 0.
Proof. intros Hi. pose proof HV as (HL & _). unfold kv1. rewrite app_nth1 by (rewrite firstn_length; lia). apply firstn_nth. lia. Qed.
Lemma kv1_last : nth (k + 1) kv1 0 = u.
Proof. pose proof HV as (HL & _). unfold kv1. rewrite app_nth2 by (rewrite firstn_length; lia). rewrite firstn_length. replace (k + 1 - _)%nat with 0%nat by lia. reflexivity. Qed.
Lemma kv2_0 i : (i <= p)%nat -> nth i kv2 0 = u.
Proof. intros Hi. unfold kv2. rewrite app_nth1 by (rewrite repeat_length; lia). apply nth_repeat_lt. lia. Qed.
Lemma kv2_nth i : (1 <= i)%nat -> nth i kv2 0 = nth (i + o) U 0.
Proof.
  intros Hi. unfold o. destruct (le_dec i p).
  - rewrite kv2_0 by assumption. symmetry. apply Hrun. lia.
  - unfold kv2. rewrite app_nth2 by (rewrite repeat_length; lia). rewrite repeat_length, skipn_nth. f_equal. lia.
Qed.
Lemma kv1_valid : valid_kv p n1 kv1.
Proof.
  pose proof HV as (HL & Hp & Hso & Hl). pose proof k_2p. split; [apply kv1_len|]. split; [unfold n1; lia|]. split.
  - intros i j Hij Hj. rewrite kv1_len in Hj. unfold n1 in Hj. destruct (le_dec j k).
    + rewrite !kv1_nth by lia. apply Hso; lia.
    + replace j with (k + 1)%nat by lia. rewrite kv1_last. destruct (le_dec i k).
      * rewrite kv1_nth by lia. assert (nth i U 0 <= nth k U 0) by (apply Hso; lia). lra.
      * replace i with (k + 1)%nat by lia. rewrite kv1_last. lra.
  - unfold n1. replace (k - p + 1 - 1)%nat with (k - p)%nat by lia. rewrite kv1_nth by lia.
    rewrite kv1_nth by lia. rewrite (Hrun (k - p + 1)) by lia. assumption.
Qed.
Lemma kv2_valid : valid_kv p n2 kv2.
Proof.
  pose proof HV as (HL & Hp & Hso & Hl). split; [apply kv2_len|]. split; [unfold n2, o; lia|]. split.
  - intros i j Hij Hj. rewrite kv2_len in Hj. unfold n2, o in Hj. destruct i as [|i].
    + rewrite kv2_0 by lia. destruct j as [|j]; [rewrite kv2_0 by lia; lra|]. rewrite kv2_nth by lia. rewrite <- (Hrun (k - p + 1)) by lia. apply Hso; unfold o; lia.
    + rewrite !kv2_nth by lia. apply Hso; unfold o; lia.
  - unfold n2, o. rewrite !kv2_nth by lia. unfold o. replace (n - (k - p) - 1 + (k - p))%nat with (n - 1)%nat by lia. replace (n - (k - p) + (k - p))%nat with n by lia. assumption.
Qed.
Lemma kv1_ends : hd 0 kv1 = nth 0 U 0 /\ last kv1 0 = u.
Proof. split; [rewrite <- nth_hd; apply kv1_nth; lia|]. unfold kv1. apply last_last. Qed.
Lemma kv2_ends : hd 0 kv2 = u /\ last kv2 0 = last U 0.
Proof.
  pose proof HV as (HL & _). split; [rewrite <- nth_hd; apply kv2_0; lia|]. unfold kv2. rewrite last_app_ne.
  - apply last_skipn. lia.
  - intros E. apply (f_equal (@length R)) in E. rewrite skipn_length in E. cbn in E. lia.
Qed.
Lemma kv1_in x : In x kv1 -> In x (u :: U).
Proof.
  unfold kv1. intros H. apply in_app_or in H as [H|[<-|[]]]; [right|left; reflexivity].
  rewrite <- (firstn_skipn (k + 1) U). apply in_or_app; auto.
Qed.
Lemma kv2_in x : In x kv2 -> In x (u :: U).
Proof.
  unfold kv2. intros H. apply in_app_or in H as [H|H]; [left; symmetry; eapply repeat_spec; eassumption|right].
  rewrite <- (firstn_skipn (k + 1) U). apply in_or_app; auto.
Qed.

Variable P : list (list R).
Hypothesis HP : length P = n.

(** First half, strictly before u. *)
Lemma half1_before a d j x : 0 < d -> nth p U 0 <= x < u ->
  bspline_coord p (map (aff a d) kv1) (firstn n1 P) j (aff a d x) = bspline_coord p U P j x.
Proof.
  intros Hd Hx. pose proof HV as (HL & Hp & Hso & Hl). pose proof k_2p as H2p.
  assert (Lf : length (firstn n1 P) = n1) by (rewrite firstn_length; unfold n1; lia).
  destruct (span_exists (knots_of U) p (k - p) x) as (s & Hs & Hin).
  { lia. } { change (nth p U 0 <= x <= nth (k - p + 1) U 0). rewrite (Hrun (k - p + 1)) by lia. lra. }
  assert (Hsx : nth s U 0 <= x < nth (s + 1) U 0).
  { destruct Hin as [[_ H]|[-> [H1 H2]]]; [exact H|]. split; [exact H1|]. rewrite (Hrun (k - p + 1)) by lia. lra. }
  rewrite (bspline_piece p U P j x s); [|rewrite HP; assumption|left; split; [lia|exact Hsx]].
  rewrite (bspline_piece p _ (firstn n1 P) j (aff a d x) s).
  2:{ rewrite Lf. apply valid_aff; [assumption|apply kv1_valid]. }
  2:{ rewrite Lf. apply in_span_aff; [assumption|rewrite kv1_len; unfold n1; lia|unfold n1; lia|].
      unfold in_span, knots_of. unfold n1. replace (k - p + 1 - 1)%nat with (k - p)%nat by lia.
      destruct (Nat.eq_dec s (k - p)) as [->|]; [right|left].
      - split; [reflexivity|]. rewrite !kv1_nth by lia. lra.
      - split; [lia|]. rewrite !kv1_nth by lia. exact Hsx. }
  rewrite Lf, HP.
  replace n with (n1 + (n - n1))%nat by (unfold n1; lia). rewrite Rsum_split.
  rewrite (Rsum_zero (fun i => piece (knots_of U) s p (n1 + i) x * nth j (nth (n1 + i) P []) 0)).
  2:{ intros i Hi. rewrite piece_supp by (unfold n1; lia). ring. }
  rewrite Rplus_0_r. apply Rsum_ext. intros i Hi. rewrite firstn_nth by assumption.
  rewrite piece_aff_list by (try assumption; rewrite kv1_len; unfold n1; lia).
  rewrite (piece_local (knots_of kv1) (knots_of U)); [reflexivity|]. intros q Hq. apply kv1_nth. lia.
Qed.
(** The point of parameter u is a control point. *)
Lemma at_u j : bspline_coord p U P j u = nth j (nth (k - p) P []) 0.
Proof.
  pose proof HV as (HL & Hp & Hso & Hl).
  rewrite (bspline_piece p U P j u k); rewrite ?HP; try assumption.
  2:{ destruct (Nat.eq_dec k (n - 1)) as [->|]; [right; split; [reflexivity|]; unfold knots_of; lra|left; split; [lia|unfold knots_of; lra]]. }
  assert (Hm : mono (knots_of U) (n + p)) by (intros i i' H1 H2; apply Hso; lia).
  assert (HS1 : piece (knots_of U) k p (k - p) u = 1).
  { apply (piece_start (knots_of U) k (n + p)); auto; try lia; unfold knots_of; try lra. }
  assert (Hsum : Rsum (fun i => piece (knots_of U) k p i u) n = 1).
  { apply (piece_sum (knots_of U) k (n + p)); auto; try lia. unfold knots_of. lra. }
  assert (Hnn : forall i, (i < n)%nat -> 0 <= piece (knots_of U) k p i u).
  { intros i Hi. apply (piece_nonneg (knots_of U) k (n + p)); auto; try lia; unfold knots_of; lra. }
  pose proof (Rsum_others _ n (k - p)%nat Hnn Hsum ltac:(lia) HS1) as Hz.
  rewrite (Rsum_one _ n (k - p)%nat); [rewrite HS1; ring|lia|]. intros i Hi Hne. rewrite Hz by assumption. ring.
Qed.
Lemma half1_u a d j : 0 < d -> bspline_coord p (map (aff a d) kv1) (firstn n1 P) j (aff a d u) = nth j (nth (k - p) P []) 0.
Proof.
  intros Hd. pose proof HV as (HL & Hp & Hso & Hl). pose proof k_2p as H2p.
  assert (Lf : length (firstn n1 P) = n1) by (rewrite firstn_length; unfold n1; lia).
  assert (HV1 : valid_kv p n1 (map (aff a d) kv1)) by (apply valid_aff; [assumption|apply kv1_valid]).
  assert (Hend : forall i, (n1 <= i <= n1 + p)%nat -> nth i (map (aff a d) kv1) 0 = aff a d u).
  { intros i Hi. unfold n1 in Hi. rewrite nth_map_lt by (rewrite kv1_len; unfold n1; lia). f_equal.
    destruct (le_dec i k); [rewrite kv1_nth by assumption; apply Hrun; lia|]. replace i with (k + 1)%nat by lia. apply kv1_last. }
  unfold bspline_coord. rewrite Lf.
  rewrite (Rsum_one _ n1 (k - p)%nat).
  - rewrite (clamped_end p n1 _ (aff a d u) HV1); [|intros i Hi; rewrite (Hend i Hi), (Hend n1) by lia; reflexivity|rewrite Hend by lia; reflexivity|unfold n1; lia].
    destruct (Nat.eq_dec (k - p) (n1 - 1)) as [|X]; [|exfalso; apply X; unfold n1; lia]. rewrite firstn_nth by (unfold n1; lia). ring.
  - unfold n1; lia.
  - intros i Hi Hne. rewrite (clamped_end p n1 _ (aff a d u) HV1); [|intros i' Hi'; rewrite (Hend i' Hi'), (Hend n1) by lia; reflexivity|rewrite Hend by lia; reflexivity|assumption].
    destruct (Nat.eq_dec i (n1 - 1)); [exfalso; unfold n1 in *; lia|ring].
Qed.
Lemma half1 a d j x : 0 < d -> nth p U 0 <= x <= u ->
  bspline_coord p (map (aff a d) kv1) (firstn n1 P) j (aff a d x) = bspline_coord p U P j x.
Proof.
  intros Hd Hx. destruct (Req_dec x u) as [->|]; [rewrite half1_u, at_u by assumption; reflexivity|apply half1_before; [assumption|lra]].
Qed.
Lemma half2 a d j x : 0 < d -> u <= x <= nth n U 0 ->
  bspline_coord p (map (aff a d) kv2) (skipn o P) j (aff a d x) = bspline_coord p U P j x.
Proof.
  intros Hd Hx. pose proof HV as (HL & Hp & Hso & Hl).
  assert (Lf : length (skipn o P) = n2) by (rewrite skipn_length; unfold n2; lia).
  destruct (span_exists (knots_of U) k (n - 1) x) as (s & Hs & Hin).
  { lia. } { change (nth k U 0 <= x <= nth (n - 1 + 1) U 0). replace (n - 1 + 1)%nat with n by lia. lra. }
  rewrite (bspline_piece p U P j x s); [|rewrite HP; assumption|rewrite HP; exact Hin].
  rewrite (bspline_piece p _ (skipn o P) j (aff a d x) (s - o)).
  2:{ rewrite Lf. apply valid_aff; [assumption|apply kv2_valid]. }
  2:{ rewrite Lf. apply in_span_aff; [assumption|rewrite kv2_len; unfold n2, o; lia|unfold n2, o; lia|].
      unfold in_span, knots_of. rewrite !kv2_nth by (unfold n2, o; lia).
      replace (s - o + o)%nat with s by (unfold o; lia). replace (s - o + 1 + o)%nat with (s + 1)%nat by (unfold o; lia).
      replace (n2 - 1 + o)%nat with (n - 1)%nat by (unfold n2, o; lia). replace (n2 - 1 + 1 + o)%nat with (n - 1 + 1)%nat by (unfold n2, o; lia).
      destruct Hin as [[H1 H2]|[-> H2]]; [left|right]; (split; [unfold n2, o; lia|exact H2]). }
  rewrite Lf, HP.
  replace n with (o + n2)%nat at 1 by (unfold n2, o; lia). rewrite Rsum_split.
  rewrite (Rsum_zero (fun i => piece (knots_of U) s p i x * nth j (nth i P []) 0) o).
  2:{ intros i Hi. unfold o in Hi. rewrite piece_supp by lia. ring. }
  rewrite Rplus_0_l. apply Rsum_ext. intros i Hi. rewrite skipn_nth.
  rewrite piece_aff_list by (try assumption; rewrite kv2_len; unfold n2, o; lia).
  rewrite (piece_local (knots_of kv2) (fun q => knots_of U (q + o))); [|intros q Hq; apply kv2_nth; unfold o in *; lia].
  rewrite piece_shift. replace (s - o + o)%nat with s by (unfold o; lia). replace (i + o)%nat with (o + i)%nat by lia. reflexivity.
Qed.
End Halves.
