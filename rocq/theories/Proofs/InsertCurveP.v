(** insert_knot_curve on curve objects. *)
From Coq Require Import Lia Lra Psatz Permutation.
From Verif.Model Require Import RBase Nurbs.
From Verif.Spec Require Import NurbsSpec CurveSpec.
From Verif.Proofs Require Import VecP NurbsP NurbsP2 NurbsP3 BoehmP InsertP KnotsP.
Open Scope R_scope.

Lemma kv_knots_of U u k r i : (k < length U)%nat -> knots_of (knot_insertion_kv U u k r) i = insR (knots_of U) k r u i.
Proof.
  intros Hk. destruct (lt_dec i (length U + r)); [apply kv_insertion_nth; assumption|].
  unfold knots_of at 1. rewrite nth_overflow by (rewrite kv_insertion_length; lia). rewrite insR_gt by lia.
  unfold knots_of. rewrite nth_overflow by lia. reflexivity.
Qed.
Lemma valid_fvalid p n U : valid_kv p n U -> fvalid (knots_of U) p n.
Proof.
  intros (HL & Hp & Hs & Hl). split; [|split; [assumption|exact Hl]]. intros i j Hij Hj. apply Hs; lia.
Qed.
Lemma fvalid_valid p n U : length U = (n + p + 1)%nat -> fvalid (knots_of U) p n -> valid_kv p n U.
Proof.
  intros HL (Hm & Hp & Hl). split; [assumption|]. split; [assumption|]. split; [|exact Hl]. intros i j Hij Hj. apply Hm; lia.
Qed.
Lemma kv_insertion_valid p n U u k r : valid_kv p n U -> (k < n)%nat -> nth k U 0 <= u < nth (k + 1) U 0 ->
  valid_kv p (n + r) (knot_insertion_kv U u k r).
Proof.
  intros HV Hk Hu. pose proof HV as (HL & Hp & _). apply fvalid_valid.
  - rewrite kv_insertion_length. lia.
  - pose proof (insR_fvalid (knots_of U) p n k u r (valid_fvalid _ _ _ HV) Hk Hu) as (Hm & H1 & H2).
    split; [|split; [assumption|]].
    + intros i j Hij Hj. rewrite !kv_knots_of by lia. apply Hm; assumption.
    + rewrite !kv_knots_of by lia. assumption.
Qed.

(** All points of the same dimension d: the refined list describes the same curve. *)
Definition dims (d : nat) (P : list (list R)) : Prop := forall Q, In Q P -> length Q = d.

Section Full.
Variables (p : nat) (U : list R) (P : list (list R)) (u : R) (r s k d : nat).
Hypothesis HV : valid_kv p (length P) U.
Hypothesis Hk : (p <= k < length P)%nat.
Hypothesis Hu : nth k U 0 <= u < nth (k + 1) U 0.
Hypothesis Hmul : forall i, (k - s < i <= k)%nat -> nth i U 0 = u.
Hypothesis Hr : (1 <= r)%nat.
Hypothesis Hdim : dims d P.

Lemma dim0 : length (cpt P 0) = d.
Proof. apply Hdim. apply nth_In. lia. Qed.
Lemma knot_insertion_full : (s + r = p)%nat ->
  knot_insertion p U P u r s k = map (Qv p U P u k r) (seq 0 (length P + r)).
Proof.
  intros Hs. rewrite (knot_insertion_spec p U P u r s k (valid_fvalid _ _ _ HV) Hk Hu Hmul); [|lia|lia|rewrite dim0; exact Hdim].
  rewrite (proj2 (Nat.eqb_eq _ _) Hs). reflexivity.
Qed.
Lemma knot_insertion_dims : dims d (map (Qv p U P u k r) (seq 0 (length P + r))).
Proof. intros Q HQ. apply in_map_iff in HQ as (i & <- & _). unfold Qv. rewrite map_length, seq_length. apply dim0. Qed.
Lemma knot_insertion_bspline j x : (j < d)%nat -> nth p U 0 <= x <= nth (length P) U 0 ->
  bspline_coord p (knot_insertion_kv U u k r) (map (Qv p U P u k r) (seq 0 (length P + r))) j x = bspline_coord p U P j x.
Proof.
  intros Hj Hx. pose proof HV as (HL & Hp & _). unfold bspline_coord. rewrite map_length, seq_length.
  rewrite (insert_many (knots_of U) p (length P) k u (fun i => nth j (nth i P []) 0) x r (valid_fvalid _ _ _ HV) Hk Hu Hx).
  apply Rsum_ext. intros i Hi. rewrite seq_map_nth by assumption.
  rewrite (cox_ext (knots_of (knot_insertion_kv U u k r)) (insR (knots_of U) k r u)) by (intros; apply kv_knots_of; lia).
  f_equal. cbn [Nat.add]. unfold Qv. rewrite dim0. rewrite seq_map_nth by assumption. reflexivity.
Qed.
Lemma Qf_pos (f : nat -> R) : (forall i, (i < length P)%nat -> 0 < f i) ->
  forall r', (r' <= r)%nat -> forall i, (i < length P + r')%nat -> 0 < Qf (knots_of U) k u p r' f i.
Proof.
  intros Hf r'. induction r'; intros Hr' i Hi; cbn [Qf]; [apply Hf; lia|].
  pose proof (insR_fvalid (knots_of U) p (length P) k u r' (valid_fvalid _ _ _ HV) ltac:(lia) Hu) as (Hm & H1 & H2).
  unfold insP. set (V := insR (knots_of U) k r' u) in *.
  assert (Hb : V (k + r')%nat <= u < V (k + r' + 1)%nat).
  { unfold V. rewrite (insR_gt _ k r' u (k + r' + 1)) by lia. replace (k + r' + 1 - r')%nat with (k + 1)%nat by lia.
    destruct r'; [rewrite insR_le by lia; rewrite Nat.add_0_r; exact Hu|rewrite insR_mid by lia; unfold knots_of; lra]. }
  assert (Ha : (i < length P + r')%nat -> 0 <= alpha V (k + r') u p i <= 1).
  { intros Hi'. unfold alpha. destruct (Nat.leb_spec (i + p) (k + r')); [lra|]. destruct (Nat.ltb_spec (k + r') i); [lra|].
    assert (V i <= V (k + r')%nat) by (apply Hm; lia). assert (V (k + r' + 1)%nat <= V (i + p)%nat) by (apply Hm; lia).
    split.
    - apply Rmult_le_pos; [lra|]. left. apply Rinv_0_lt_compat. lra.
    - apply Rmult_le_reg_r with (V (i + p)%nat - V i); [lra|]. unfold Rdiv. rewrite Rmult_assoc, Rinv_l, Rmult_1_r, Rmult_1_l by lra. lra. }
  destruct i as [|i].
  - rewrite alpha_1 by lia. cbn [prevP]. rewrite Rmult_1_l. replace (1 - 1) with 0 by ring. rewrite Rmult_0_l, Rplus_0_r. apply IHr'; lia.
  - cbn [prevP]. assert (P1 : 0 < Qf (knots_of U) k u p r' f i) by (apply IHr'; lia).
    destruct (Nat.eq_dec (S i) (length P + r')) as [E|E].
    + rewrite alpha_0 by lia. lra.
    + assert (P2 : 0 < Qf (knots_of U) k u p r' f (S i)) by (apply IHr'; lia). specialize (Ha ltac:(lia)).
      set (a := alpha _ _ _ _ _) in *. destruct (Rle_lt_dec a (1/2)); nra.
Qed.
End Full.

(** ** Homogeneous coordinates *)
Lemma last_nth_R (q : list R) e d : length q = (d + 1)%nat -> last q e = nth d q e.
Proof. intros H. destruct (@exists_last _ q) as (l & x & ->); [intros ->; cbn in H; lia|]. rewrite app_length in H; cbn in H.
  rewrite last_last. rewrite app_nth2 by lia. replace (d - length l)%nat with 0%nat by lia. reflexivity. Qed.
Lemma removelast_len (q : list R) d : length q = (d + 1)%nat -> length (removelast q) = d.
Proof. intros H. destruct (@exists_last _ q) as (l & x & ->); [intros ->; cbn in H; lia|]. rewrite app_length in H; cbn in H. rewrite removelast_last. lia. Qed.
Lemma sep_ctrlptsw Q d : dims (d + 1) Q -> (forall q, In q Q -> nth d q 0 <> 0) ->
  ctrlptsw (fst (separate_ctrlpts_weights Q)) (snd (separate_ctrlpts_weights Q)) = Q.
Proof.
  intros HD HN. unfold separate_ctrlpts_weights, ctrlptsw. cbn [fst snd].
  induction Q as [|q t IH]; [reflexivity|]. cbn [map combine fst snd].
  rewrite IH; [|intros x Hx; apply HD; right; assumption|intros x Hx; apply HN; right; assumption].
  f_equal. pose proof (HD q (or_introl eq_refl)) as Hq. pose proof (HN q (or_introl eq_refl)) as Hz.
  rewrite <- (last_nth_R q 0 d Hq) in Hz.
  destruct (@exists_last _ q) as (l & x & ->); [intros ->; cbn in Hq; lia|]. rewrite last_last in *. rewrite removelast_last.
  f_equal. unfold pscale. rewrite map_map. rewrite <- (map_id l) at 2. apply map_ext. intros y. field. assumption.
Qed.
Lemma sep_dims Q d : dims (d + 1) Q -> dims d (fst (separate_ctrlpts_weights Q)).
Proof. intros HD x Hx. apply in_map_iff in Hx as (q & <- & Hq). rewrite map_length. apply removelast_len. apply HD. assumption. Qed.
Lemma sep_len Q : length (fst (separate_ctrlpts_weights Q)) = length Q /\ length (snd (separate_ctrlpts_weights Q)) = length Q.
Proof. unfold separate_ctrlpts_weights. cbn [fst snd]. rewrite !map_length. auto. Qed.
Lemma ctrlptsw_dims P w d : dims d P -> dims (d + 1) (ctrlptsw P w).
Proof.
  intros HD q Hq. unfold ctrlptsw in Hq. apply in_map_iff in Hq as ([a b] & <- & Hab). cbn [fst snd]. rewrite app_length. unfold pscale. rewrite map_length. cbn.
  rewrite (HD a); [reflexivity|]. eapply in_combine_l; eassumption.
Qed.

(** ** The curve object rebuilt from a knot vector *)
Lemma np_unique_hd U : nondec U -> U <> [] -> hd 0 (np_unique U) = hd 0 U.
Proof.
  intros HN HU. destruct U as [|x t]; [contradiction|]. inversion HN as [|? ? Ht Hx]; subst. change (np_unique (x :: t)) with (insert_sorted_unique x (np_unique t)).
  pose proof (np_unique_incr t) as Hi. pose proof (fun y => proj1 (np_unique_in t y)) as Hin. destruct (np_unique t) as [|y l]; [reflexivity|].
  cbn. destruct (Rltb x y) eqn:E; [reflexivity|]. apply Rltb_false in E. specialize (Hx y (Hin y (or_introl eq_refl))).
  assert (x = y) by lra. subst y. assert (Reqb x x = true) as -> by (apply Reqb_spec; reflexivity). reflexivity.
Qed.
Lemma last_in (l : list R) : l <> [] -> In (last l 0) l.
Proof. intros H. destruct (@exists_last _ l H) as (l' & x & ->). rewrite last_last. apply in_or_app. right; left; reflexivity. Qed.
Lemma nondec_last l : nondec l -> forall x, In x l -> x <= last l 0.
Proof.
  induction 1 as [|x t Ht IH Hx]; intros y Hy; [contradiction|]. destruct t as [|z t].
  - destruct Hy as [<-|[]]. cbn. lra.
  - change (last (x :: z :: t) 0) with (last (z :: t) 0). destruct Hy as [<-|Hy]; [apply Hx, last_in; discriminate|auto].
Qed.
Lemma incr_nondec l : incr l -> nondec l.
Proof. induction 1; constructor; auto. intros y Hy. specialize (H0 y Hy). lra. Qed.
Lemma np_unique_ne U : U <> [] -> np_unique U <> [].
Proof. intros H E. destruct U as [|x t]; [contradiction|]. assert (In x []) by (rewrite <- E; apply np_unique_in; left; reflexivity). contradiction. Qed.
Lemma np_unique_last U : nondec U -> U <> [] -> last (np_unique U) 0 = last U 0.
Proof.
  intros HN HU. apply Rle_antisym.
  - apply nondec_last; [assumption|]. apply np_unique_in. apply last_in, np_unique_ne, HU.
  - apply nondec_last; [apply incr_nondec, np_unique_incr|]. apply np_unique_in. apply last_in, HU.
Qed.
Lemma expand_map f ks : forall ms, expand_knots (map f ks) ms = map f (expand_knots ks ms).
Proof.
  induction ks as [|k t IH]; intros [|m ms]; [reflexivity..|]. cbn [map]. rewrite !expand_cons, map_app, IH. f_equal.
  induction m; cbn; [reflexivity|]. f_equal. assumption.
Qed.
Definition keep_weights (w : option (list R)) : option (list R) :=
  match w with Some w => if any_nonzero w then Some w else None | None => None end.
Lemma rebuild p P w kv : separated eps15 kv -> sorted_knots kv -> hd 0 kv < last kv 0 ->
  exists c, bcurve_new p P (snd (get_knots_and_multiplicities kv)) (fst (get_knots_and_multiplicities kv)) w = Ok c /\
    knotvector c = map (fun k => (k - hd 0 kv) / (last kv 0 - hd 0 kv)) kv /\
    bc_degree c = p /\ bc_ctrlpts c = P /\ bc_weights c = keep_weights w.
Proof.
  intros HS Hso Hlt. pose proof (knots_mults_sorted kv HS Hso) as E. unfold get_knots_and_multiplicities in *. cbn [fst snd] in *.
  assert (HN : nondec kv) by (apply sorted_nondec; assumption).
  assert (Hne : kv <> []) by (intros ->; cbn in Hlt; lra).
  pose proof (np_unique_hd kv HN Hne) as Hh. pose proof (np_unique_last kv HN Hne) as Hl.
  set (ms := map _ _) in *. unfold bcurve_new, standardize_knot_vector.
  destruct (np_unique kv) as [|x t] eqn:EU; [exfalso; eapply np_unique_ne; eauto|]. cbn [hd] in Hh. subst x.
  assert (Reqb (last (hd 0 kv :: t) 0 - hd 0 kv) 0 = false) as ->.
  { rewrite Hl. destruct (Reqb (last kv 0 - hd 0 kv) 0) eqn:Eq; [|reflexivity]. apply Reqb_spec in Eq. lra. }
  rewrite Hl. eexists. split; [reflexivity|]. split; [|split; [reflexivity|split; [reflexivity|reflexivity]]].
  unfold knotvector. cbn [bc_knots bc_mults]. rewrite expand_map. f_equal. exact E.
Qed.
Lemma rebuild01 p P w kv : separated eps15 kv -> sorted_knots kv -> hd 0 kv = 0 -> last kv 0 = 1 ->
  exists c, bcurve_new p P (snd (get_knots_and_multiplicities kv)) (fst (get_knots_and_multiplicities kv)) w = Ok c /\
    knotvector c = kv /\ bc_degree c = p /\ bc_ctrlpts c = P /\ bc_weights c = keep_weights w.
Proof.
  intros HS Hso H0 H1. destruct (rebuild p P w kv HS Hso ltac:(lra)) as (c & A & B & C). exists c. split; [assumption|]. split; [|assumption].
  rewrite B, H0, H1. rewrite <- (map_id kv) at 2. apply map_ext. intros. field.
Qed.
Lemma keep_pos w : w <> [] -> (forall x, In x w -> 0 < x) -> keep_weights (Some w) = Some w.
Proof.
  intros Hne Hp. cbn. destruct w as [|x t]; [contradiction|]. unfold any_nonzero. cbn.
  assert (Reqb x 0 = false) as ->; [|reflexivity]. destruct (Reqb x 0) eqn:E; [|reflexivity]. apply Reqb_spec in E. specialize (Hp x (or_introl eq_refl)). lra.
Qed.
Lemma nth_hd (l : list R) : nth 0 l 0 = hd 0 l. Proof. destruct l; reflexivity. Qed.

Lemma separated_tail eps u U : separated eps (u :: U) -> separated eps U /\ separated_from eps u U.
Proof.
  intros H. split.
  - intros x Hx y Hy. apply (H x (or_intror Hx) y (or_intror Hy)).
  - intros y Hy. apply (H u (or_introl eq_refl) y (or_intror Hy)).
Qed.
Lemma separated_incl eps U V : (forall x, In x V -> In x U) -> separated eps U -> separated eps V.
Proof. intros H HS x Hx y Hy. apply HS; auto. Qed.
Lemma kv_insertion_in U u k r x : (k < length U)%nat -> In x (knot_insertion_kv U u k r) -> In x (u :: U).
Proof.
  intros Hk. rewrite kv_insertion_explicit by assumption. intros H. rewrite !in_app_iff in H. destruct H as [H|[H|H]].
  - right. rewrite <- (firstn_skipn (k + 1) U). apply in_or_app; auto.
  - left. symmetry. eapply repeat_spec; eassumption.
  - right. rewrite <- (firstn_skipn (k + 1) U). apply in_or_app; auto.
Qed.
Lemma last_app_ne (l l' : list R) : l' <> [] -> last (l ++ l') 0 = last l' 0.
Proof. intros H. destruct (@exists_last _ l' H) as (m & x & ->). rewrite app_assoc, !last_last. reflexivity. Qed.
Lemma last_skipn (l : list R) k : (k < length l)%nat -> last (skipn k l) 0 = last l 0.
Proof. intros H. rewrite <- (firstn_skipn k l) at 2. symmetry. apply last_app_ne. intros E. apply (f_equal (@length R)) in E. rewrite skipn_length in E. cbn in E. lia. Qed.
Lemma kv_insertion_ends U u k r : (k + 1 < length U)%nat -> hd 0 (knot_insertion_kv U u k r) = hd 0 U /\ last (knot_insertion_kv U u k r) 0 = last U 0.
Proof.
  intros Hk. rewrite kv_insertion_explicit by lia. split.
  - destruct U; [cbn in Hk; lia|]. rewrite Nat.add_1_r. reflexivity.
  - rewrite last_app_ne. 2:{ intros E. apply (f_equal (@length R)) in E. rewrite app_length, skipn_length in E. cbn in E. lia. }
    rewrite last_app_ne. 2:{ intros E. apply (f_equal (@length R)) in E. rewrite skipn_length in E. cbn in E. lia. }
    apply last_skipn. assumption.
Qed.

(** ** The span and multiplicity of u *)
Lemma span_data c u : valid_curve c -> distinguishable c u ->
  nth (bc_degree c) (knotvector c) 0 <= u < nth (length (bc_ctrlpts c)) (knotvector c) 0 ->
  let U := knotvector c in let n := length (bc_ctrlpts c) in let p := bc_degree c in
  let s := occurrences u U in let k := find_span_linear p U n u in
  find_multiplicity u U = s /\ (p <= k < n)%nat /\ nth k U 0 <= u < nth (k + 1) U 0 /\ (s <= k + 1)%nat /\
  (forall i, (k + 1 - s <= i <= k)%nat -> nth i U 0 = u) /\ (forall i, (i < k + 1 - s)%nat -> nth i U 0 < u).
Proof.
  intros (HV & HD & HW) HS Hu. cbn zeta. pose proof HV as (HL & Hp & Hso & Hl).
  destruct (find_span_linear_domain _ _ _ _ HV Hu) as [Hk Hku]. destruct (separated_tail _ _ _ HS) as [HS1 HS2].
  set (k := find_span_linear _ _ _ _) in *. split; [apply find_multiplicity_occ, HS2|]. split; [assumption|]. split; [assumption|].
  destruct (occ_span u (knotvector c) k Hso) as (A & B & C); [lia|lra| |split; [assumption|split; assumption]].
  intros i Hi. apply Rlt_le_trans with (nth (k + 1) (knotvector c) 0); [lra|apply Hso; lia].
Qed.

(** ** Full insertion *)
Lemma insert_full c u num b : valid_curve c -> normalized c -> distinguishable c u ->
  nth (bc_degree c) (knotvector c) 0 <= u < nth (length (bc_ctrlpts c)) (knotvector c) 0 ->
  (1 <= num)%nat -> (occurrences u (knotvector c) + num = bc_degree c)%nat ->
  let k := find_span_linear (bc_degree c) (knotvector c) (length (bc_ctrlpts c)) u in
  exists c', insert_knot_curve c u num b = Ok c' /\ valid_curve c' /\ normalized c' /\
    bc_degree c' = bc_degree c /\ cdim c' = cdim c /\ length (bc_ctrlpts c') = (length (bc_ctrlpts c) + num)%nat /\
    knotvector c' = knot_insertion_kv (knotvector c) u k num /\
    (forall x, in_domain c x -> in_domain c' x /\ curve_point c' x = curve_point c x).
Proof.
  intros HVC [HN0 HN1] HS Hu Hnum Hfull. cbn zeta.
  destruct (span_data c u HVC HS Hu) as (Hmul & Hk & Hku & Hs1 & Hrun & _). cbn zeta in *.
  pose proof HVC as (HV & HD & HW). pose proof HV as (HL & Hp & Hso & Hl).
  set (U := knotvector c) in *. set (p := bc_degree c) in *. set (P := bc_ctrlpts c) in *. set (n := length P) in *.
  set (s := occurrences u U) in *. set (k := find_span_linear p U n u) in *. set (kv := knot_insertion_kv U u k num).
  assert (HVk : valid_kv p (n + num) kv) by (apply kv_insertion_valid; [assumption|lia|assumption]).
  pose proof (kv_insertion_ends U u k num ltac:(lia)) as [E0 E1]. fold kv in E0, E1.
  assert (HSk : separated eps15 kv) by (eapply separated_incl; [intros x Hx; eapply kv_insertion_in; [|exact Hx]; lia|exact HS]).
  assert (Hrun' : forall i, (k - s < i <= k)%nat -> nth i U 0 = u) by (intros; apply Hrun; lia).
  pose proof HVk as (HLk & Hpk & Hsok & Hlk).
  assert (Hch : b && (Z.of_nat p - Z.of_nat (find_multiplicity u U) <? Z.of_nat num)%Z = false).
  { rewrite Hmul. destruct b; [|reflexivity]. apply Z.ltb_ge. lia. }
  assert (HDOM : forall x c', bc_degree c' = p -> length (bc_ctrlpts c') = (n + num)%nat -> knotvector c' = kv -> in_domain c x -> in_domain c' x).
  { intros x c' A B C Hx. unfold in_domain in *. rewrite A, B, C. fold p U in Hx |- *.
    assert (F1 : nth p kv 0 = nth p U 0). { change (knots_of kv p = knots_of U p). unfold kv. rewrite kv_knots_of by lia. apply insR_le. lia. }
    assert (F2 : nth (n + num) kv 0 = nth n U 0). { change (knots_of kv (n + num) = knots_of U n). unfold kv. rewrite kv_knots_of by lia. rewrite insR_gt by lia. f_equal. lia. }
    rewrite F1, F2. exact Hx. }
  unfold insert_knot_curve. fold U p P n k kv. destruct num as [|num']; [lia|]. set (num := S num') in *. rewrite Hmul in Hch. rewrite Hmul. fold s.
  rewrite Hch.
  destruct (bc_weights c) as [w|] eqn:EW.
  - destruct HW as [HWl HWp]. fold P in HWl.
    set (Q := map (Qv p U (ctrlptsw P w) u k num) (seq 0 (n + num))).
    assert (LP : length (ctrlptsw P w) = n) by (apply ctrlptsw_length; assumption).
    assert (DP : dims (cdim c + 1) (ctrlptsw P w)) by (apply ctrlptsw_dims; exact HD).
    assert (EQ : knot_insertion p U (ctrlptsw P w) u num s k = Q).
    { rewrite (knot_insertion_full p U (ctrlptsw P w) u num s k (cdim c + 1)); rewrite ?LP; auto. }
    rewrite EQ.
    assert (DQ : dims (cdim c + 1) Q).
    { unfold Q. pose proof (knot_insertion_dims p U (ctrlptsw P w) u num k (cdim c + 1)) as X. rewrite LP in X. apply X; auto. }
    assert (PQ : forall q, In q Q -> 0 < nth (cdim c) q 0).
    { intros q Hq. unfold Q in Hq. apply in_map_iff in Hq as (i & <- & Hi). apply in_seq in Hi. unfold Qv.
      pose proof (dim0 p (ctrlptsw P w) num k (cdim c + 1)) as X. rewrite LP in X. rewrite X by auto. rewrite seq_map_nth by lia.
      pose proof (Qf_pos p U (ctrlptsw P w) u num k) as Y. rewrite LP in Y. apply Y; auto; try lia.
      intros i0 Hi0. unfold coordP. cbn [Nat.add]. rewrite (ctrlptsw_weight P w (cdim c)); auto.
      + apply HWp, nth_In. lia.
      + apply HD, nth_In. assumption. }
    pose proof (sep_ctrlptsw Q (cdim c) DQ (fun q Hq => Rgt_not_eq _ _ (PQ q Hq))) as ES.
    pose proof (sep_dims Q (cdim c) DQ) as ED. pose proof (sep_len Q) as [EL1 EL2].
    assert (LQ : length Q = (n + num)%nat) by (unfold Q; rewrite map_length, seq_length; reflexivity).
    assert (PW : forall x, In x (snd (separate_ctrlpts_weights Q)) -> 0 < x).
    { intros x Hx. cbn in Hx. apply in_map_iff in Hx as (q & <- & Hq). rewrite (last_nth_R q 0 (cdim c)) by (apply DQ; assumption). apply PQ. assumption. }
    destruct (separate_ctrlpts_weights Q) as [Pn wn]. cbn [fst snd] in *.
    destruct (rebuild01 p Pn (Some wn) kv HSk Hsok) as (c' & R1 & R2 & R3 & R4 & R5); [rewrite E0, <- nth_hd; exact HN0|rewrite E1; exact HN1|].
    rewrite keep_pos in R5 by (auto; intros ->; cbn in EL2; lia).
    destruct (get_knots_and_multiplicities kv) as [ks ms]. cbn [fst snd] in *.
    assert (ED0 : cdim c' = cdim c). { unfold cdim at 1. rewrite R4. apply ED, nth_In. lia. }
    assert (LN : length (bc_ctrlpts c') = (n + num)%nat) by (rewrite R4; lia).
    exists c'. split; [exact R1|]. split; [|split; [|split; [assumption|split; [assumption|split; [assumption|split; [assumption|]]]]]].
    + unfold valid_curve. rewrite R2, R3, R5, ED0, LN. split; [assumption|]. split; [rewrite R4; exact ED|]. split; [lia|exact PW].
    + unfold normalized. rewrite R2, nth_hd, E0, E1, <- nth_hd. split; assumption.
    + intros x Hx. split; [apply HDOM; assumption|]. unfold curve_point. rewrite ED0. apply map_ext_in. intros j Hj. apply in_seq in Hj.
      unfold curve_at. rewrite R5, EW, R2, R3, R4. fold p U P. unfold nurbs_coord.
      rewrite <- (bspline_coord_w p kv Pn wn (cdim c)) by (auto; lia). rewrite <- (bspline_weight_w p kv Pn wn (cdim c)) by (auto; lia).
      rewrite <- (bspline_coord_w p U P w (cdim c)) by (auto; lia). rewrite <- (bspline_weight_w p U P w (cdim c)) by (auto; lia).
      rewrite ES. unfold Q, kv.
      pose proof (knot_insertion_bspline p U (ctrlptsw P w) u num k (cdim c + 1)) as X. rewrite LP in X. rewrite !X by (auto; lia). reflexivity.
  - assert (EQ : knot_insertion p U P u num s k = map (Qv p U P u k num) (seq 0 (n + num))).
    { apply (knot_insertion_full p U P u num s k (cdim c)); auto. }
    rewrite EQ. set (Q := map _ _) in *.
    assert (DQ : dims (cdim c) Q) by (apply (knot_insertion_dims p U P u num k (cdim c)); auto).
    assert (LQ : length Q = (n + num)%nat) by (unfold Q; rewrite map_length, seq_length; reflexivity).
    destruct (rebuild01 p Q None kv HSk Hsok) as (c' & R1 & R2 & R3 & R4 & R5); [rewrite E0, <- nth_hd; exact HN0|rewrite E1; exact HN1|].
    cbn in R5. destruct (get_knots_and_multiplicities kv) as [ks ms]. cbn [fst snd] in *.
    assert (ED0 : cdim c' = cdim c). { unfold cdim at 1. rewrite R4. apply DQ, nth_In. lia. }
    assert (LN : length (bc_ctrlpts c') = (n + num)%nat) by (rewrite R4; lia).
    exists c'. split; [exact R1|]. split; [|split; [|split; [assumption|split; [assumption|split; [assumption|split; [assumption|]]]]]].
    + unfold valid_curve. rewrite R2, R3, R5, ED0, LN. split; [assumption|]. split; [rewrite R4; exact DQ|trivial].
    + unfold normalized. rewrite R2, nth_hd, E0, E1, <- nth_hd. split; assumption.
    + intros x Hx. split; [apply HDOM; assumption|]. unfold curve_point. rewrite ED0. apply map_ext_in. intros j Hj. apply in_seq in Hj.
      unfold curve_at. rewrite R5, EW, R2, R3, R4. fold p U P.
      apply (knot_insertion_bspline p U P u num k (cdim c)); auto; lia.
Qed.
