(** B-spline surfaces: iso-parametric curves and boundary curves. *)
From Coq Require Import Lia Lra Psatz.
From Verif.Model Require Import RBase Nurbs NurbsSurf.
From Verif.Spec Require Import NurbsSpec CurveSpec SurfSpec.
From Verif.Proofs Require Import VecP NurbsP NurbsP2 NurbsP3 BoehmP InsertP KnotsP InsertCurveP SplitP SplitP2 SurfP SurfP2 SurfP3.
Open Scope R_scope.

Lemma slice_assign_all {A} (l : list A) a b src : (b <= a)%nat -> (a <= length l)%nat -> src = [] -> slice_assign l a b src = l.
Proof. intros H1 H2 ->. unfold slice_assign. replace (Nat.max a b) with a by lia. cbn [app]. apply firstn_skipn. Qed.
Lemma knot_insertion_0 p U P u k : (p <= k < length P)%nat -> knot_insertion p U P u 0 p k = P.
Proof.
  intros Hk. unfold knot_insertion. cbn [seq fold_left]. replace (k - p + 0)%nat with (k - p)%nat by lia. rewrite Nat.add_0_r.
  set (z := repeat _ (length P)). assert (Lz : length z = length P) by (unfold z; apply repeat_length).
  assert (E1 : slice_assign z 0 (k - p + 1) (firstn (k - p + 1) P) = firstn (k - p + 1) P ++ skipn (k - p + 1) z).
  { unfold slice_assign. rewrite Nat.max_r by lia. reflexivity. }
  rewrite E1. set (n1 := firstn (k - p + 1) P ++ skipn (k - p + 1) z).
  assert (L1 : length n1 = length P) by (unfold n1; rewrite app_length, firstn_length, skipn_length; lia).
  assert (E2 : slice_assign n1 (k - p) (length n1) (skipn (k - p) P) = P).
  { unfold slice_assign. rewrite Nat.max_r by lia. rewrite skipn_all, app_nil_r. unfold n1. rewrite firstn_app, firstn_firstn, Nat.min_l by lia.
    rewrite firstn_length. replace (k - p - Nat.min (k - p + 1) (length P))%nat with 0%nat by lia. cbn [firstn]. rewrite app_nil_r. apply firstn_skipn. }
  rewrite E2. apply slice_assign_all; [lia|lia|]. unfold slice. rewrite Nat.sub_diag. reflexivity.
Qed.

(** Raising the multiplicity of u to the degree makes a control point of the point of parameter u. *)
Lemma full_pt p n U u P d : (1 <= p)%nat -> valid_kv p n U -> separated eps15 (u :: U) -> nth p U 0 < u < nth n U 0 ->
  (occurrences u U <= p)%nat -> length P = n -> dims d P ->
  let r := (p - find_multiplicity u U)%nat in let k := find_span_linear p U n u in
  let Q := knot_insertion p U P u r (find_multiplicity u U) k in
  (p <= k < n)%nat /\ length Q = (n + r)%nat /\ dims d Q /\
  (forall j, (j < d)%nat -> (forall q, In q P -> 0 < nth j q 0) -> forall q, In q Q -> 0 < nth j q 0) /\
  (forall j, (j < d)%nat -> nth j (nth (k + r - p) Q []) 0 = bspline_coord p U P j u).
Proof.
  intros Hp1 HV HS Hu Hocc HL HD. cbn zeta. destruct (span_data_kv p n U u HV HS ltac:(lra)) as (Hmul & Hk & Hku & _ & Hrun & Hbef). cbn zeta in *.
  rewrite Hmul. set (k := find_span_linear p U n u) in *. set (r := (p - occurrences u U)%nat).
  destruct (kv_full p n U u r HV HS Hu ltac:(unfold r; lia)) as (K1 & K2 & K3 & K4 & K5 & K6 & K7). cbn zeta in *. fold k in K1, K2, K3, K4, K5, K6, K7.
  set (W := knot_insertion_kv U u k r) in *. set (Q := knot_insertion p U P u r (occurrences u U) k).
  assert (HVW : valid_kv p (n + r) W) by (apply kv_insertion_valid; [assumption|lia|assumption]).
  assert (F : length Q = (n + r)%nat /\ dims d Q /\ (forall j, (j < d)%nat -> (forall q, In q P -> 0 < nth j q 0) -> forall q, In q Q -> 0 < nth j q 0) /\
     forall j, (j < d)%nat -> bspline_coord p W Q j u = bspline_coord p U P j u).
  { destruct (Nat.eq_dec r 0) as [E|E].
    - assert (Q = P) as ->. { unfold Q. rewrite E. replace (occurrences u U) with p by (unfold r in E; lia). apply knot_insertion_0. lia. }
      assert (W = U) as ->. { unfold W. rewrite E. pose proof HV as (HLU & _). apply kv_insertion_0. lia. }
      split; [lia|]. split; [assumption|]. split; [auto|]. reflexivity.
    - pose proof (ins_facts p U P u k r d) as F. rewrite HL in F. destruct F as (F1 & F2 & F3 & F4); auto; [intros i Hi; apply Hrun; unfold r in Hi; lia|unfold r in *; lia|].
      replace (p - r)%nat with (occurrences u U) in F1 by (unfold r; lia). fold Q in F1. rewrite F1. split; [rewrite ins_len; lia|]. split; [assumption|]. split; [exact F4|].
      intros j Hj. apply F3; [assumption|lra]. }
  destruct F as (F1 & F2 & F3 & F4). split; [assumption|]. split; [assumption|]. split; [assumption|]. split; [assumption|].
  intros j Hj. rewrite <- (F4 j Hj). symmetry. apply (at_u p W (n + r)); auto. split; [destruct K3; [assumption|lia]|assumption].
Qed.

(** A curve built by the constructor from points and weights. *)
Definition net_of (P : list point) (w : option (list R)) : list point := match w with Some w => ctrlptsw P w | None => P end.
Lemma any_nonzero_pos w : w <> [] -> (forall x, In x w -> 0 < x) -> any_nonzero w = true.
Proof.
  intros Hne HP. destruct w as [|x t]; [contradiction|]. unfold any_nonzero. cbn [existsb]. rewrite (Reqb_ne x 0); [reflexivity|]. specialize (HP x (or_introl eq_refl)). lra.
Qed.
Lemma pw_curve s d ms ks P w : valid_surface s -> hd 0 ks = 0 -> last ks 0 = 1 -> valid_kv d (length P) (expand_knots ks ms) -> dims 3 P ->
  (w = None <-> bs_w s = None) -> match w with Some w => length w = length P /\ (forall x, In x w -> 0 < x) | None => True end ->
  bcurve_new d P ms ks w = Ok (mkbcurve d P ms ks w) /\ valid_curve (mkbcurve d P ms ks w) /\
  forall x u v, (forall j, (j < rdim s)%nat -> bspline_coord d (expand_knots ks ms) (net_of P w) j x = hsurf s j u v) ->
    curve_point (mkbcurve d P ms ks w) x = surface_point s u v.
Proof.
  intros HVS H0 H1 HV HD HW HWp. assert (HP0 : (0 < length P)%nat) by (destruct HV as (_ & H & _); lia).
  assert (CD : cdim (mkbcurve d P ms ks w) = 3%nat) by (unfold cdim, cpt; cbn [bc_ctrlpts]; apply HD, nth_In; assumption).
  split; [|split].
  - unfold bcurve_new. rewrite (std_id ks H0 H1). destruct w as [w|]; [|reflexivity]. destruct HWp as [HWl HWp].
    rewrite (any_nonzero_pos w); [reflexivity| |assumption]. intros ->. cbn in HWl. lia.
  - unfold valid_curve, knotvector. cbn [bc_degree bc_ctrlpts bc_knots bc_mults bc_weights]. split; [assumption|]. split; [|destruct w; assumption].
    intros q Hq. rewrite CD. apply HD. assumption.
  - intros x u v HE. unfold curve_point, surface_point. rewrite CD. apply map_ext_in. intros j Hj. apply in_seq in Hj. rewrite (surface_at_hs s j u v HVS ltac:(lia)).
    unfold curve_at. cbn [bc_degree bc_ctrlpts bc_weights]. unfold knotvector. cbn [bc_knots bc_mults]. unfold rdim in HE. destruct w as [w|], (bs_w s) as [ws|].
    + destruct HWp as [HWl _]. unfold net_of in HE. rewrite <- (HE j ltac:(lia)), <- (HE 3%nat ltac:(lia)).
      rewrite (bspline_coord_w d _ P w 3 j x HWl HD ltac:(lia)), (bspline_weight_w d _ P w 3 x HWl HD). reflexivity.
    + exfalso. destruct HW as [_ HW]. discriminate (HW eq_refl).
    + exfalso. destruct HW as [HW _]. discriminate (HW eq_refl).
    + apply HE. lia.
Qed.
Lemma net_curve s d ms ks C : valid_surface s -> hd 0 ks = 0 -> last ks 0 = 1 -> valid_kv d (length C) (expand_knots ks ms) -> good_net s C ->
  exists c, curve_from_points s d ms ks C = Ok c /\ valid_curve c /\ bc_degree c = d /\ bc_knots c = ks /\ bc_mults c = ms /\ length (bc_ctrlpts c) = length C /\
  forall x u v, (forall j, (j < rdim s)%nat -> bspline_coord d (expand_knots ks ms) C j x = hsurf s j u v) -> curve_point c x = surface_point s u v.
Proof.
  intros HVS H0 H1 HV [HD HP]. unfold curve_from_points. unfold rdim in HD. destruct (bs_w s) as [ws|] eqn:EW.
  - assert (HP' : forall q, In q C -> 0 < nth 3 q 0) by (apply HP; discriminate). clear HP.
    pose proof (sep_ctrlptsw C 3 HD (fun q Hq => Rgt_not_eq _ _ (HP' q Hq))) as ES.
    pose proof (sep_dims C 3 HD) as ED. pose proof (sep_len C) as [EL1 EL2].
    assert (PW : forall x, In x (snd (separate_ctrlpts_weights C)) -> 0 < x).
    { intros x Hx. cbn in Hx. apply in_map_iff in Hx as (q & <- & Hq). rewrite (last_nth_R q 0 3) by (apply HD; assumption). apply HP'. assumption. }
    destruct (separate_ctrlpts_weights C) as [P w]. cbn [fst snd] in *.
    destruct (pw_curve s d ms ks P (Some w) HVS H0 H1) as (A & B & D); auto; [rewrite EL1; assumption|rewrite EW; split; discriminate|split; [lia|assumption]|].
    exists (mkbcurve d P ms ks (Some w)). rewrite A. cbn [bc_degree bc_knots bc_mults bc_ctrlpts]. repeat (split; [auto|]). intros x u v HE. apply D. cbn [net_of]. rewrite ES. exact HE.
  - destruct (pw_curve s d ms ks C None HVS H0 H1) as (A & B & D); auto; [rewrite EW; split; reflexivity|].
    exists (mkbcurve d C ms ks None). rewrite A. cbn [bc_degree bc_knots bc_mults bc_ctrlpts]. repeat (split; [auto|]). exact D.
Qed.

(** ** extract_surface_curve_u: the points are those of the iso-curve S(u, .) *)
Section IsoU.
Variables (s : bsurf) (u : R).
Hypothesis HVS : valid_surface s.
Let U := knots_vector_u s.
Let p := bs_du s.
Let n := bs_nu s.
Let nv := bs_nv s.
Hypothesis Hp1 : (1 <= p)%nat.
Hypothesis HS : separated eps15 (u :: U).
Hypothesis Hu : nth p U 0 < u < nth n U 0.
Hypothesis Hocc : (occurrences u U <= p)%nat.
Let r := (p - find_multiplicity u U)%nat.
Let k := find_span_linear p U n u.
Let Qc (j : nat) := knot_insertion p U (col (cpts s) n nv j) u r (find_multiplicity u U) k.
Lemma isoU_col j : (j < nv)%nat ->
  (p <= k < n)%nat /\ length (Qc j) = (n + r)%nat /\ dims (rdim s) (Qc j) /\
  (bs_w s <> None -> forall q, In q (Qc j) -> 0 < nth 3 q 0) /\
  (forall c, (c < rdim s)%nat -> nth c (nth (k + r - p) (Qc j) []) 0 = bspline_coord p U (col (cpts s) n nv j) c u).
Proof.
  intros Hj. pose proof HVS as (HU & HV & _). fold p n U in HU. destruct (cpts_good s HVS) as [[HD HP] HL]. fold n nv in HL.
  assert (HDj : dims (rdim s) (col (cpts s) n nv j)) by (intros q Hq; apply HD; eapply col_in; eauto).
  destruct (full_pt p n U u (col (cpts s) n nv j) (rdim s) Hp1 HU HS Hu Hocc (col_len _ _ _ _) HDj) as (A & B & D & E & F). cbn zeta in *. fold r k in A, B, D, E, F. fold (Qc j) in B, D, E, F.
  split; [assumption|]. split; [assumption|]. split; [assumption|]. split; [|assumption].
  intros HW. apply E; [unfold rdim; destruct (bs_w s); [lia|contradiction]|]. intros q Hq. apply HP; [assumption|]. eapply col_in; eauto.
Qed.
Lemma isoU_points : iso_points_u s u = map (fun j => nth (k + r - p) (Qc j) []) (seq 0 nv).
Proof.
  pose proof HVS as (HU & HV & _). fold p n U in HU. assert (Hnv : (0 < nv)%nat) by (destruct HV as (_ & H & _); fold nv in H; lia).
  pose proof (isoU_col 0 Hnv) as (Hk & _). unfold iso_points_u. fold p U n nv. fold k r.
  set (C' := insert_points_u s u r). replace (k - p + 1 + r - 1)%nat with (k + r - p)%nat by lia. set (o := (k + r - p)%nat) in *.
  assert (HN : forall i j, (i < n + r)%nat -> (j < nv)%nat -> nth (j + nv * i) C' [] = nth i (Qc j) []).
  { intros i j Hi Hj. unfold C', insert_points_u. fold p U n nv. fold k. rewrite flip_nth by assumption. rewrite flat_nth; auto.
    intros x Hx. apply (isoU_col x). lia. }
  set (T := skipn o (reshape C' (n + r) nv)).
  assert (RT : forall row, In row T -> length row = nv) by (intros x Hx; eapply reshape_rows; eapply in_skipn; exact Hx).
  assert (LT : length T = (n + r - o)%nat) by (unfold T; rewrite skipn_length, reshape_len; reflexivity).
  assert (LF : length (ctrlpts2d_to_ctrlpts T) = (length T * nv)%nat) by (apply flatten_len; assumption).
  apply nth_ext with (d := []) (d' := []).
  - rewrite firstn_length, LF, map_length, seq_length. apply Nat.min_l. assert (1 <= length T)%nat by (rewrite LT; unfold o; lia). nia.
  - intros j Hj. rewrite firstn_length in Hj. assert (Hj' : (j < nv)%nat) by lia.
    rewrite firstn_nth by assumption. rewrite seq_map_nth by assumption. replace j with (j + nv * 0)%nat at 1 by lia.
    rewrite (flatten_nth T nv 0 j RT) by (try assumption; rewrite LT; unfold o; lia).
    unfold T. rewrite skipn_nth. rewrite Nat.add_0_r. rewrite reshape_nth by (try assumption; unfold o; lia). cbn [Nat.add]. apply HN; [unfold o; lia|assumption].
Qed.
Lemma isoU_good : good_net s (iso_points_u s u) /\ length (iso_points_u s u) = nv /\
  forall c v, (c < rdim s)%nat -> bspline_coord (bs_dv s) (knots_vector_v s) (iso_points_u s u) c v = hsurf s c u v.
Proof.
  rewrite isoU_points. split; [split|split].
  - intros q Hq. apply in_map_iff in Hq as (j & <- & Hj). apply in_seq in Hj. destruct (isoU_col j ltac:(lia)) as (A & B & D & _). apply D, nth_In. lia.
  - intros HW q Hq. apply in_map_iff in Hq as (j & <- & Hj). apply in_seq in Hj. destruct (isoU_col j ltac:(lia)) as (A & B & _ & D & _). apply D; [assumption|]. apply nth_In. lia.
  - rewrite map_length, seq_length. reflexivity.
  - intros c v Hc. unfold hsurf. rewrite hs_cols. unfold bspline_coord at 1. rewrite map_length, seq_length. apply Rsum_ext. intros j Hj.
    rewrite seq_map_nth by assumption. cbn [Nat.add]. destruct (isoU_col j Hj) as (_ & _ & _ & _ & F). rewrite (F c Hc). reflexivity.
Qed.
End IsoU.

Section IsoV.
Variables (s : bsurf) (v : R).
Hypothesis HVS : valid_surface s.
Let V := knots_vector_v s.
Let p := bs_dv s.
Let n := bs_nv s.
Let nu := bs_nu s.
Hypothesis Hp1 : (1 <= p)%nat.
Hypothesis HS : separated eps15 (v :: V).
Hypothesis Hv : nth p V 0 < v < nth n V 0.
Hypothesis Hocc : (occurrences v V <= p)%nat.
Let r := (p - find_multiplicity v V)%nat.
Let k := find_span_linear p V n v.
Let Qr (i : nat) := knot_insertion p V (row (cpts s) n i) v r (find_multiplicity v V) k.
Lemma isoV_row i : (i < nu)%nat ->
  (p <= k < n)%nat /\ length (Qr i) = (n + r)%nat /\ dims (rdim s) (Qr i) /\
  (bs_w s <> None -> forall q, In q (Qr i) -> 0 < nth 3 q 0) /\
  (forall c, (c < rdim s)%nat -> nth c (nth (k + r - p) (Qr i) []) 0 = bspline_coord p V (row (cpts s) n i) c v).
Proof.
  intros Hi. pose proof HVS as (HU & HV & _). fold p n V in HV. destruct (cpts_good s HVS) as [[HD HP] HL]. fold n nu in HL.
  assert (HDj : dims (rdim s) (row (cpts s) n i)) by (intros q Hq; apply HD; eapply row_in; eauto).
  destruct (full_pt p n V v (row (cpts s) n i) (rdim s) Hp1 HV HS Hv Hocc (row_len _ _ _) HDj) as (A & B & D & E & F). cbn zeta in *. fold r k in A, B, D, E, F. fold (Qr i) in B, D, E, F.
  split; [assumption|]. split; [assumption|]. split; [assumption|]. split; [|assumption].
  intros HW. apply E; [unfold rdim; destruct (bs_w s); [lia|contradiction]|]. intros q Hq. apply HP; [assumption|]. eapply row_in; eauto.
Qed.
Lemma isoV_points : iso_points_v s v = map (fun i => nth (k + r - p) (Qr i) []) (seq 0 nu).
Proof.
  pose proof HVS as (HU & HV & _). fold p n V in HV. assert (Hnu : (0 < nu)%nat) by (destruct HU as (_ & H & _); fold nu in H; lia).
  pose proof (isoV_row 0 Hnu) as (Hk & _). unfold iso_points_v. fold p V n nu. fold k r.
  set (C' := insert_points_v s v r). replace (k - p + 1 + r - 1)%nat with (k + r - p)%nat by lia. set (o := (k + r - p)%nat) in *.
  unfold reshape. rewrite map_map. apply map_ext_in. intros i Hi. apply in_seq in Hi.
  rewrite skipn_nth, Nat.add_0_r. rewrite seq_map_nth by (unfold o; lia). cbn [Nat.add]. unfold cpt.
  unfold C', insert_points_v. fold p V n nu. fold k. rewrite flat_nth; auto; try (unfold o; lia).
  intros x Hx. apply (isoV_row x). lia.
Qed.
Lemma isoV_good : good_net s (iso_points_v s v) /\ length (iso_points_v s v) = nu /\
  forall c u, (c < rdim s)%nat -> bspline_coord (bs_du s) (knots_vector_u s) (iso_points_v s v) c u = hsurf s c u v.
Proof.
  rewrite isoV_points. split; [split|split].
  - intros q Hq. apply in_map_iff in Hq as (j & <- & Hj). apply in_seq in Hj. destruct (isoV_row j ltac:(lia)) as (A & B & D & _). apply D, nth_In. lia.
  - intros HW q Hq. apply in_map_iff in Hq as (j & <- & Hj). apply in_seq in Hj. destruct (isoV_row j ltac:(lia)) as (A & B & _ & D & _). apply D; [assumption|]. apply nth_In. lia.
  - rewrite map_length, seq_length. reflexivity.
  - intros c u Hc. unfold hsurf. rewrite hs_rows. unfold bspline_coord at 1. rewrite map_length, seq_length. apply Rsum_ext. intros j Hj.
    rewrite seq_map_nth by assumption. cbn [Nat.add]. destruct (isoV_row j Hj) as (_ & _ & _ & _ & F). rewrite (F c Hc). reflexivity.
Qed.
End IsoV.

(** The extracted curve is the iso-curve when both directions have the same degree, knots and multiplicities. *)
Lemma iso_u_same s u : valid_surface s -> normalized_surface s -> (1 <= bs_du s)%nat -> separated eps15 (u :: knots_vector_u s) ->
  nth (bs_du s) (knots_vector_u s) 0 < u < nth (bs_nu s) (knots_vector_u s) 0 -> (occurrences u (knots_vector_u s) <= bs_du s)%nat ->
  bs_du s = bs_dv s -> bs_um s = bs_vm s -> bs_uk s = bs_vk s ->
  exists c, extract_surface_curve_u s u = Ok c /\ valid_curve c /\ iso_curve_u s c u.
Proof.
  intros HVS [(N1 & N2 & N3 & N4) (N5 & N6 & N7 & N8)] Hp HS Hu Hocc E1 E2 E3. pose proof HVS as (HU & HV & _).
  destruct (isoU_good s u HVS Hp HS Hu Hocc) as (G & L & F).
  destruct (net_curve s (bs_dv s) (bs_vm s) (bs_vk s) (iso_points_u s u) HVS N5 N6) as (c & C1 & C2 & C3 & C4 & C5 & C6 & C7); [rewrite L; exact HV|assumption|].
  exists c. split; [|split; [assumption|]].
  - unfold extract_surface_curve_u. rewrite (u_domain_eq s HVS). cbn [fst snd].
    assert (D1 : Reqb u (nth (bs_du s) (knots_vector_u s) 0) = false) by (apply Reqb_ne; lra).
    assert (D2 : Reqb u (nth (bs_nu s) (knots_vector_u s) 0) = false) by (apply Reqb_ne; lra).
    rewrite D1, D2. cbn [orb]. rewrite E1, E2, E3. exact C1.
  - intros v Hv. split; [|apply C7; intros j Hj; apply F; assumption].
    unfold in_domain, in_v_domain, knotvector in *. rewrite C3, C4, C5, C6, L. exact Hv.
Qed.
Lemma iso_v_same s v : valid_surface s -> normalized_surface s -> (1 <= bs_dv s)%nat -> separated eps15 (v :: knots_vector_v s) ->
  nth (bs_dv s) (knots_vector_v s) 0 < v < nth (bs_nv s) (knots_vector_v s) 0 -> (occurrences v (knots_vector_v s) <= bs_dv s)%nat ->
  bs_du s = bs_dv s -> bs_um s = bs_vm s -> bs_uk s = bs_vk s ->
  exists c, extract_surface_curve_v s v = Ok c /\ valid_curve c /\ iso_curve_v s c v.
Proof.
  intros HVS [(N1 & N2 & N3 & N4) (N5 & N6 & N7 & N8)] Hp HS Hv Hocc E1 E2 E3. pose proof HVS as (HU & HV & _).
  destruct (isoV_good s v HVS Hp HS Hv Hocc) as (G & L & F).
  destruct (net_curve s (bs_du s) (bs_um s) (bs_uk s) (iso_points_v s v) HVS N1 N2) as (c & C1 & C2 & C3 & C4 & C5 & C6 & C7); [rewrite L; exact HU|assumption|].
  exists c. split; [|split; [assumption|]].
  - unfold extract_surface_curve_v. rewrite (v_domain_eq s HVS). cbn [fst snd].
    assert (D1 : Reqb v (nth (bs_dv s) (knots_vector_v s) 0) = false) by (apply Reqb_ne; lra).
    assert (D2 : Reqb v (nth (bs_nv s) (knots_vector_v s) 0) = false) by (apply Reqb_ne; lra).
    rewrite D1, D2. cbn [orb]. rewrite <- E1, <- E2, <- E3. exact C1.
  - intros u Hu. split; [|apply C7; intros j Hj; apply F; assumption].
    unfold in_domain, in_u_domain, knotvector in *. rewrite C3, C4, C5, C6, L. exact Hu.
Qed.
(** In general the result has the points of the iso-curve but the degree and knots of the other direction. *)
Lemma iso_u_actual s u c : valid_surface s -> normalized_surface s -> (1 <= bs_du s)%nat -> separated eps15 (u :: knots_vector_u s) ->
  nth (bs_du s) (knots_vector_u s) 0 < u < nth (bs_nu s) (knots_vector_u s) 0 -> (occurrences u (knots_vector_u s) <= bs_du s)%nat ->
  extract_surface_curve_u s u = Ok c ->
  bc_degree c = bs_du s /\ knotvector c = knots_vector_u s /\ length (bc_ctrlpts c) = bs_nv s /\
  iso_curve_u s (mkbcurve (bs_dv s) (bc_ctrlpts c) (bs_vm s) (bs_vk s) (bc_weights c)) u.
Proof.
  intros HVS [(N1 & N2 & N3 & N4) (N5 & N6 & N7 & N8)] Hp HS Hu Hocc HE. pose proof HVS as (HU & HV & _).
  destruct (isoU_good s u HVS Hp HS Hu Hocc) as (G & L & F).
  destruct (net_curve s (bs_dv s) (bs_vm s) (bs_vk s) (iso_points_u s u) HVS N5 N6) as (c' & C1 & C2 & C3 & C4 & C5 & C6 & C7); [rewrite L; exact HV|assumption|].
  unfold extract_surface_curve_u in HE. destruct (_ || _) eqn:EB in HE; [discriminate|]. clear EB.
  unfold curve_from_points in *. destruct (match bs_w s with Some _ => _ | None => _ end) as [P w] eqn:EP.
  unfold bcurve_new in *. rewrite (std_id _ N1 N2) in HE. rewrite (std_id _ N5 N6) in C1. apply Ok_inj in HE. apply Ok_inj in C1. subst c c'.
  cbn [bc_degree bc_ctrlpts bc_weights bc_knots bc_mults] in *. split; [reflexivity|]. split; [reflexivity|]. split; [lia|].
  intros v Hv. split; [|apply C7; intros j Hj; apply F; assumption].
  unfold in_domain, in_v_domain, knotvector in *. cbn [bc_degree bc_ctrlpts bc_weights bc_knots bc_mults]. rewrite C6, L. exact Hv.
Qed.
Lemma iso_v_actual s v c : valid_surface s -> normalized_surface s -> (1 <= bs_dv s)%nat -> separated eps15 (v :: knots_vector_v s) ->
  nth (bs_dv s) (knots_vector_v s) 0 < v < nth (bs_nv s) (knots_vector_v s) 0 -> (occurrences v (knots_vector_v s) <= bs_dv s)%nat ->
  extract_surface_curve_v s v = Ok c ->
  bc_degree c = bs_dv s /\ knotvector c = knots_vector_v s /\ length (bc_ctrlpts c) = bs_nu s /\
  iso_curve_v s (mkbcurve (bs_du s) (bc_ctrlpts c) (bs_um s) (bs_uk s) (bc_weights c)) v.
Proof.
  intros HVS [(N1 & N2 & N3 & N4) (N5 & N6 & N7 & N8)] Hp HS Hv Hocc HE. pose proof HVS as (HU & HV & _).
  destruct (isoV_good s v HVS Hp HS Hv Hocc) as (G & L & F).
  destruct (net_curve s (bs_du s) (bs_um s) (bs_uk s) (iso_points_v s v) HVS N1 N2) as (c' & C1 & C2 & C3 & C4 & C5 & C6 & C7); [rewrite L; exact HU|assumption|].
  unfold extract_surface_curve_v in HE. destruct (_ || _) eqn:EB in HE; [discriminate|]. clear EB.
  unfold curve_from_points in *. destruct (match bs_w s with Some _ => _ | None => _ end) as [P w] eqn:EP.
  unfold bcurve_new in *. rewrite (std_id _ N5 N6) in HE. rewrite (std_id _ N1 N2) in C1. apply Ok_inj in HE. apply Ok_inj in C1. subst c c'.
  cbn [bc_degree bc_ctrlpts bc_weights bc_knots bc_mults] in *. split; [reflexivity|]. split; [reflexivity|]. split; [lia|].
  intros u Hu. split; [|apply C7; intros j Hj; apply F; assumption].
  unfold in_domain, in_u_domain, knotvector in *. cbn [bc_degree bc_ctrlpts bc_weights bc_knots bc_mults]. rewrite C6, L. exact Hu.
Qed.
(** Hence a surface with different numbers of points gives a curve which is not even well-formed. *)
Lemma iso_u_ill s u c : valid_surface s -> normalized_surface s -> (1 <= bs_du s)%nat -> separated eps15 (u :: knots_vector_u s) ->
  nth (bs_du s) (knots_vector_u s) 0 < u < nth (bs_nu s) (knots_vector_u s) 0 -> (occurrences u (knots_vector_u s) <= bs_du s)%nat ->
  extract_surface_curve_u s u = Ok c -> bs_nu s <> bs_nv s -> ~ valid_curve c.
Proof.
  intros HVS HN Hp HS Hu Hocc HE Hne ((HL & _) & _). destruct (iso_u_actual s u c HVS HN Hp HS Hu Hocc HE) as (A & B & D & _). pose proof HVS as ((HLU & _) & _).
  rewrite A, B, D in HL. lia.
Qed.

(** ** Curves of the control net *)
Definition pts_row (s : bsurf) (i : nat) : list point := map (fun j => cpt (bs_pts s) (j + bs_nv s * i)) (seq 0 (bs_nv s)).
Definition pts_col (s : bsurf) (j : nat) : list point := map (fun i => cpt (bs_pts s) (j + bs_nv s * i)) (seq 0 (bs_nu s)).
Definition w_row (s : bsurf) (i : nat) : option (list R) := option_map (fun w => map (fun j => nth (j + bs_nv s * i) w 0) (seq 0 (bs_nv s))) (bs_w s).
Definition w_col (s : bsurf) (j : nat) : option (list R) := option_map (fun w => map (fun i => nth (j + bs_nv s * i) w 0) (seq 0 (bs_nu s))) (bs_w s).
Lemma ctrlptsw_sub P w (f : nat -> nat) n : length w = length P -> (forall i, (i < n)%nat -> (f i < length P)%nat) ->
  ctrlptsw (map (fun i => cpt P (f i)) (seq 0 n)) (map (fun i => nth (f i) w 0) (seq 0 n)) = map (fun i => nth (f i) (ctrlptsw P w) []) (seq 0 n).
Proof.
  intros HL Hf. apply nth_ext with (d := []) (d' := []); rewrite ctrlptsw_length by (rewrite !map_length; reflexivity).
  - rewrite !map_length. reflexivity.
  - rewrite map_length, seq_length. intros i Hi. rewrite ctrlptsw_nth by (rewrite !map_length; auto; rewrite seq_length; assumption).
    rewrite !seq_map_nth by assumption. cbn [Nat.add]. unfold cpt. rewrite ctrlptsw_nth by auto. reflexivity.
Qed.
Lemma net_row s i : valid_surface s -> (i < bs_nu s)%nat ->
  net_of (pts_row s i) (w_row s i) = row (cpts s) (bs_nv s) i /\ length (pts_row s i) = bs_nv s /\ dims 3 (pts_row s i) /\ (w_row s i = None <-> bs_w s = None) /\
  match w_row s i with Some w => length w = length (pts_row s i) /\ (forall x, In x w -> 0 < x) | None => True end.
Proof.
  intros (HU & HV & HL & HD & HW) Hi. unfold net_of, pts_row, w_row, row, cpts. rewrite map_length, seq_length.
  assert (DD : dims 3 (map (fun j => cpt (bs_pts s) (j + bs_nv s * i)) (seq 0 (bs_nv s)))).
  { intros q Hq. apply in_map_iff in Hq as (j & <- & Hj). apply in_seq in Hj. apply HD, nth_In. rewrite HL. apply idx_lt; lia. }
  destruct (bs_w s) as [w|]; cbn [option_map].
  - destruct HW as [HWl HWp]. split; [apply ctrlptsw_sub; [lia|intros j Hj; rewrite HL; apply idx_lt; lia]|]. split; [reflexivity|]. split; [assumption|]. split; [split; discriminate|].
    rewrite !map_length, seq_length. split; [reflexivity|]. intros x Hx. apply in_map_iff in Hx as (j & <- & Hj). apply in_seq in Hj. apply HWp, nth_In. rewrite HWl. apply idx_lt; lia.
  - split; [reflexivity|]. split; [reflexivity|]. split; [assumption|]. split; [split; reflexivity|trivial].
Qed.
Lemma net_col s j : valid_surface s -> (j < bs_nv s)%nat ->
  net_of (pts_col s j) (w_col s j) = col (cpts s) (bs_nu s) (bs_nv s) j /\ length (pts_col s j) = bs_nu s /\ dims 3 (pts_col s j) /\ (w_col s j = None <-> bs_w s = None) /\
  match w_col s j with Some w => length w = length (pts_col s j) /\ (forall x, In x w -> 0 < x) | None => True end.
Proof.
  intros (HU & HV & HL & HD & HW) Hj. unfold net_of, pts_col, w_col, col, cpts. rewrite map_length, seq_length.
  assert (DD : dims 3 (map (fun i => cpt (bs_pts s) (j + bs_nv s * i)) (seq 0 (bs_nu s)))).
  { intros q Hq. apply in_map_iff in Hq as (i & <- & Hi). apply in_seq in Hi. apply HD, nth_In. rewrite HL. apply idx_lt; lia. }
  destruct (bs_w s) as [w|]; cbn [option_map].
  - destruct HW as [HWl HWp]. split; [apply ctrlptsw_sub; [lia|intros i Hi; rewrite HL; apply idx_lt; lia]|]. split; [reflexivity|]. split; [assumption|]. split; [split; discriminate|].
    rewrite !map_length, seq_length. split; [reflexivity|]. intros x Hx. apply in_map_iff in Hx as (i & <- & Hi). apply in_seq in Hi. apply HWp, nth_In. rewrite HWl. apply idx_lt; lia.
  - split; [reflexivity|]. split; [reflexivity|]. split; [assumption|]. split; [split; reflexivity|trivial].
Qed.
Lemma Rsum_single x n i : (i < n)%nat -> Rsum (fun k => if Nat.eq_dec k i then x else 0) n = x.
Proof.
  revert i. induction n; intros i Hi; [lia|]. rewrite Rsum_S. destruct (Nat.eq_dec n i) as [->|Hn].
  - rewrite Rsum_zero; [ring|]. intros k Hk. destruct (Nat.eq_dec k i); [lia|reflexivity].
  - rewrite IHn by lia. ring.
Qed.
(** The border curves of a clamped surface. *)
Lemma end_rows s c u v i : valid_surface s -> clamped_kv (bs_du s) (bs_nu s) (knots_vector_u s) ->
  (i = 0%nat /\ u = nth (bs_du s) (knots_vector_u s) 0) \/ (i = (bs_nu s - 1)%nat /\ u = nth (bs_nu s) (knots_vector_u s) 0) ->
  bspline_coord (bs_dv s) (knots_vector_v s) (row (cpts s) (bs_nv s) i) c v = hsurf s c u v.
Proof.
  intros (HU & HV & _) HC Hi. assert (Hn : (bs_du s < bs_nu s)%nat) by apply HU. unfold hsurf. rewrite hs_rows.
  rewrite (Rsum_ext _ (fun x => if Nat.eq_dec x i then bspline_coord (bs_dv s) (knots_vector_v s) (row (cpts s) (bs_nv s) i) c v else 0)).
  - symmetry. apply Rsum_single. lia.
  - intros x Hx. unfold bfun. destruct Hi as [[Hi Hu]|[Hi Hu]].
    + destruct (clamped_start _ _ _ u HU HC Hu) as [_ ->]; [|assumption]. rewrite <- Hi. destruct (Nat.eq_dec x i) as [->|]; ring.
    + rewrite (clamped_end _ _ _ u HU (proj1 (proj2 HC)) Hu) by assumption. rewrite <- Hi. destruct (Nat.eq_dec x i) as [->|]; ring.
Qed.
Lemma end_cols s c u v j : valid_surface s -> clamped_kv (bs_dv s) (bs_nv s) (knots_vector_v s) ->
  (j = 0%nat /\ v = nth (bs_dv s) (knots_vector_v s) 0) \/ (j = (bs_nv s - 1)%nat /\ v = nth (bs_nv s) (knots_vector_v s) 0) ->
  bspline_coord (bs_du s) (knots_vector_u s) (col (cpts s) (bs_nu s) (bs_nv s) j) c u = hsurf s c u v.
Proof.
  intros (HU & HV & _) HC Hj. assert (Hn : (bs_dv s < bs_nv s)%nat) by apply HV. unfold hsurf. rewrite hs_cols.
  rewrite (Rsum_ext _ (fun x => if Nat.eq_dec x j then bspline_coord (bs_du s) (knots_vector_u s) (col (cpts s) (bs_nu s) (bs_nv s) j) c u else 0)).
  - symmetry. apply Rsum_single. lia.
  - intros x Hx. unfold bfun. destruct Hj as [[Hj Hv]|[Hj Hv]].
    + destruct (clamped_start _ _ _ v HV HC Hv) as [_ ->]; [|assumption]. rewrite <- Hj. destruct (Nat.eq_dec x j) as [->|]; ring.
    + rewrite (clamped_end _ _ _ v HV (proj1 (proj2 HC)) Hv) by assumption. rewrite <- Hj. destruct (Nat.eq_dec x j) as [->|]; ring.
Qed.
Lemma surface_curve_v_ok s i : valid_surface s -> normalized_surface s -> (i < bs_nu s)%nat ->
  exists c, surface_curve_v s i = Ok c /\ valid_curve c /\ bc_ctrlpts c = pts_row s i /\ bc_degree c = bs_dv s /\ knotvector c = knots_vector_v s /\ forall u v, (forall j, (j < rdim s)%nat -> bspline_coord (bs_dv s) (knots_vector_v s) (row (cpts s) (bs_nv s) i) j v = hsurf s j u v) -> curve_point c v = surface_point s u v.
Proof.
  intros HVS [_ (N5 & N6 & _)] Hi. destruct (net_row s i HVS Hi) as (A & B & D & E & F). pose proof HVS as (HU & HV & _).
  destruct (pw_curve s (bs_dv s) (bs_vm s) (bs_vk s) (pts_row s i) (w_row s i) HVS N5 N6) as (X & Y & Z); auto; [rewrite B; exact HV|].
  eexists. split; [exact X|]. split; [exact Y|]. split; [reflexivity|]. split; [reflexivity|]. split; [reflexivity|]. intros u v HE. apply Z. rewrite A. exact HE.
Qed.
Lemma surface_curve_u_ok s j : valid_surface s -> normalized_surface s -> (j < bs_nv s)%nat ->
  exists c, surface_curve_u s j = Ok c /\ valid_curve c /\ bc_ctrlpts c = pts_col s j /\ bc_degree c = bs_du s /\ knotvector c = knots_vector_u s /\ forall u v, (forall c', (c' < rdim s)%nat -> bspline_coord (bs_du s) (knots_vector_u s) (col (cpts s) (bs_nu s) (bs_nv s) j) c' u = hsurf s c' u v) -> curve_point c u = surface_point s u v.
Proof.
  intros HVS [(N1 & N2 & _) _] Hj. destruct (net_col s j HVS Hj) as (A & B & D & E & F). pose proof HVS as (HU & HV & _).
  destruct (pw_curve s (bs_du s) (bs_um s) (bs_uk s) (pts_col s j) (w_col s j) HVS N1 N2) as (X & Y & Z); auto; [rewrite B; exact HU|].
  eexists. split; [exact X|]. split; [exact Y|]. split; [reflexivity|]. split; [reflexivity|]. split; [reflexivity|]. intros u v HE. apply Z. rewrite A. exact HE.
Qed.
(** The first and last curves of the control net of a clamped surface are its borders. *)
Lemma border_rows s i u : valid_surface s -> normalized_surface s -> clamped_kv (bs_du s) (bs_nu s) (knots_vector_u s) ->
  (i = 0%nat /\ u = nth (bs_du s) (knots_vector_u s) 0) \/ (i = (bs_nu s - 1)%nat /\ u = nth (bs_nu s) (knots_vector_u s) 0) ->
  exists c, surface_curve_v s i = Ok c /\ valid_curve c /\ iso_curve_u s c u.
Proof.
  intros HVS HN HC Hi. pose proof HVS as (HU & HV & _). assert (Hn : (bs_du s < bs_nu s)%nat) by apply HU.
  destruct (surface_curve_v_ok s i HVS HN ltac:(lia)) as (c & A & B & C & D & E & F). exists c. split; [assumption|]. split; [assumption|].
  intros v Hv. split.
  - unfold in_domain, in_v_domain in *. rewrite D, E, C. unfold pts_row. rewrite map_length, seq_length. exact Hv.
  - apply F. intros j Hj. apply end_rows; assumption.
Qed.
Lemma border_cols s j v : valid_surface s -> normalized_surface s -> clamped_kv (bs_dv s) (bs_nv s) (knots_vector_v s) ->
  (j = 0%nat /\ v = nth (bs_dv s) (knots_vector_v s) 0) \/ (j = (bs_nv s - 1)%nat /\ v = nth (bs_nv s) (knots_vector_v s) 0) ->
  exists c, surface_curve_u s j = Ok c /\ valid_curve c /\ iso_curve_v s c v.
Proof.
  intros HVS HN HC Hj. pose proof HVS as (HU & HV & _). assert (Hn : (bs_dv s < bs_nv s)%nat) by apply HV.
  destruct (surface_curve_u_ok s j HVS HN ltac:(lia)) as (c & A & B & C & D & E & F). exists c. split; [assumption|]. split; [assumption|].
  intros u Hu. split.
  - unfold in_domain, in_u_domain in *. rewrite D, E, C. unfold pts_col. rewrite map_length, seq_length. exact Hu.
  - apply F. intros j' Hj'. apply end_cols; assumption.
Qed.
(** extract_curves' border curves: the same points with the data of the other direction. *)
Lemma boundary_u_actual s i : normalized_surface s -> boundary_u s i = bcurve_new (bs_du s) (pts_row s i) (bs_um s) (bs_uk s) (w_row s i).
Proof. reflexivity. Qed.
Lemma boundary_u_same s i : bs_du s = bs_dv s -> bs_um s = bs_vm s -> bs_uk s = bs_vk s -> boundary_u s i = surface_curve_v s i.
Proof. intros A B C. unfold boundary_u, surface_curve_v. rewrite A, B, C. reflexivity. Qed.
Lemma boundary_v_same s j : bs_du s = bs_dv s -> bs_um s = bs_vm s -> bs_uk s = bs_vk s -> boundary_v s j = surface_curve_u s j.
Proof. intros A B C. unfold boundary_v, surface_curve_u. rewrite A, B, C. reflexivity. Qed.
Lemma boundary_u_ill s i c : valid_surface s -> normalized_surface s -> bs_nu s <> bs_nv s -> boundary_u s i = Ok c -> ~ valid_curve c.
Proof.
  intros HVS [(N1 & N2 & _) _] Hne HE ((HL & _) & _). pose proof HVS as ((HLU & _) & _).
  unfold boundary_u, bcurve_new in HE. rewrite (std_id _ N1 N2) in HE. apply Ok_inj in HE. subst c. unfold knotvector in HL. cbn [bc_degree bc_ctrlpts bc_knots bc_mults] in HL.
  rewrite map_length, seq_length in HL. unfold knots_vector_u in HLU. lia.
Qed.
Lemma boundary_v_ill s i c : valid_surface s -> normalized_surface s -> bs_nu s <> bs_nv s -> boundary_v s i = Ok c -> ~ valid_curve c.
Proof.
  intros HVS [_ (N1 & N2 & _)] Hne HE ((HL & _) & _). pose proof HVS as (_ & (HLU & _) & _).
  unfold boundary_v, bcurve_new in HE. rewrite (std_id _ N1 N2) in HE. apply Ok_inj in HE. subst c. unfold knotvector in HL. cbn [bc_degree bc_ctrlpts bc_knots bc_mults] in HL.
  rewrite map_length, seq_length in HL. unfold knots_vector_v in HLU. lia.
Qed.

(** ** Convex hull, corners *)
Lemma surface_corner s i k u v : valid_surface s -> clamped_kv (bs_du s) (bs_nu s) (knots_vector_u s) -> clamped_kv (bs_dv s) (bs_nv s) (knots_vector_v s) ->
  (i = 0%nat /\ u = nth (bs_du s) (knots_vector_u s) 0) \/ (i = (bs_nu s - 1)%nat /\ u = nth (bs_nu s) (knots_vector_u s) 0) ->
  (k = 0%nat /\ v = nth (bs_dv s) (knots_vector_v s) 0) \/ (k = (bs_nv s - 1)%nat /\ v = nth (bs_nv s) (knots_vector_v s) 0) ->
  surface_point s u v = point_ik s i k.
Proof.
  intros HVS CU CV Hi Hk. pose proof HVS as (HU & HV & HL & HD & HW).
  assert (Hi' : (i < bs_nu s)%nat) by (destruct HU as (_ & X & _); lia). assert (Hk' : (k < bs_nv s)%nat) by (destruct HV as (_ & X & _); lia).
  pose proof (idx_lt _ _ _ _ Hi' Hk') as HX.
  assert (HH : forall j, hsurf s j u v = nth j (nth (k + bs_nv s * i) (cpts s) []) 0).
  { intros j. rewrite <- (end_rows s j u v i HVS CU Hi). unfold bspline_coord, row. rewrite map_length, seq_length.
    rewrite (Rsum_ext _ (fun x => if Nat.eq_dec x k then nth j (nth (k + bs_nv s * i) (cpts s) []) 0 else 0)).
    - apply Rsum_single. assumption.
    - intros x Hx. rewrite seq_map_nth by assumption. cbn [Nat.add]. destruct Hk as [[Hk Hv]|[Hk Hv]].
      + destruct (clamped_start _ _ _ v HV CV Hv) as [_ ->]; [|assumption]. rewrite <- Hk. destruct (Nat.eq_dec x k) as [->|]; ring.
      + rewrite (clamped_end _ _ _ v HV (proj1 (proj2 CV)) Hv) by assumption. rewrite <- Hk. destruct (Nat.eq_dec x k) as [->|]; ring. }
  assert (LP : length (point_ik s i k) = 3%nat) by (apply HD, nth_In; lia).
  apply list_eq_nth; [unfold surface_point; rewrite map_length, seq_length; auto|]. unfold surface_point. rewrite map_length, seq_length. intros j Hj.
  rewrite seq_map_nth by assumption. cbn [Nat.add]. rewrite surface_at_hs by (auto; lia). rewrite !HH. unfold cpts, point_ik in *. destruct (bs_w s) as [w|]; [|reflexivity].
  destruct HW as [HWl HWp]. rewrite (ctrlptsw_coord _ w 3) by (try lia; apply HD, nth_In; lia). rewrite (ctrlptsw_weight _ w 3) by (try lia; apply HD, nth_In; lia).
  field. apply Rgt_not_eq. apply HWp, nth_In. lia.
Qed.
Lemma surface_hull s u v : valid_surface s -> in_u_domain s u -> in_v_domain s v ->
  exists lam : nat -> nat -> R,
    (forall i k, (i < bs_nu s)%nat -> (k < bs_nv s)%nat -> 0 <= lam i k) /\ Rsum (fun i => Rsum (lam i) (bs_nv s)) (bs_nu s) = 1 /\ forall j, (j < 3)%nat -> surface_at s j u v = Rsum (fun i => Rsum (fun k => lam i k * nth j (point_ik s i k) 0) (bs_nv s)) (bs_nu s).
Proof.
  intros HVS Hu Hv. pose proof (hsurf_weight_pos s u v HVS Hu Hv) as HWP. pose proof HVS as (HU & HV & HL & HD & HW).
  set (N := fun i => bfun (bs_du s) (knots_vector_u s) (bs_nu s) i u). set (M := fun k => bfun (bs_dv s) (knots_vector_v s) (bs_nv s) k v).
  assert (HN : forall i, (i < bs_nu s)%nat -> 0 <= N i) by (intros; unfold N, bfun; apply coxdeboor_nonneg; auto).
  assert (HM : forall k, (k < bs_nv s)%nat -> 0 <= M k) by (intros; unfold M, bfun; apply coxdeboor_nonneg; auto).
  assert (SN : Rsum N (bs_nu s) = 1) by (unfold N, bfun; apply coxdeboor_sum; auto).
  assert (SM : Rsum M (bs_nv s) = 1) by (unfold M, bfun; apply coxdeboor_sum; auto).
  unfold surface_at. fold (N) (M). destruct (bs_w s) as [w|] eqn:EW.
  - specialize (HWP ltac:(discriminate)). destruct HW as [HWl HWp].
    assert (EH : hsurf s 3 u v = Rsum (fun i => Rsum (fun k => N i * M k * weight_ik s w i k) (bs_nv s)) (bs_nu s)).
    { unfold hsurf, hs, cpts. rewrite EW. apply Rsum_ext. intros i Hi. apply Rsum_ext. intros k Hk. pose proof (idx_lt _ _ _ _ Hi Hk).
      rewrite (ctrlptsw_weight _ w 3) by (try lia; apply HD, nth_In; lia). reflexivity. }
    rewrite EH in HWP. set (W := Rsum _ _) in HWP. exists (fun i k => N i * M k * weight_ik s w i k / W). split; [|split].
    + intros i k Hi Hk. pose proof (idx_lt _ _ _ _ Hi Hk). apply Rmult_le_pos; [|left; apply Rinv_0_lt_compat; assumption].
      apply Rmult_le_pos; [apply Rmult_le_pos; auto|]. left. apply HWp. unfold weight_ik. apply nth_In. lia.
    + rewrite (Rsum_ext _ (fun i => Rsum (fun k => N i * M k * weight_ik s w i k) (bs_nv s) * / W)).
      * rewrite Rsum_scal_r. fold W. apply Rinv_r. lra.
      * intros i Hi. unfold Rdiv. apply (Rsum_scal_r (/ W) (fun k => N i * M k * weight_ik s w i k)).
    + intros j Hj. unfold Rdiv. rewrite <- Rsum_scal_r. apply Rsum_ext. intros i Hi. rewrite <- Rsum_scal_r. apply Rsum_ext. intros k Hk. unfold W, N, M. cbn beta. ring.
  - exists (fun i k => N i * M k). split; [|split].
    + intros i k Hi Hk. apply Rmult_le_pos; auto.
    + rewrite (Rsum_ext _ N); [assumption|]. intros i Hi. rewrite Rsum_scal, SM. ring.
    + intros j Hj. reflexivity.
Qed.
