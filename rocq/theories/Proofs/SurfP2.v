(** B-spline surfaces: knot insertion and splitting. *)
From Coq Require Import Lia Lra Psatz.
From Verif.Model Require Import RBase Nurbs NurbsSurf.
From Verif.Spec Require Import NurbsSpec CurveSpec SurfSpec.
From Verif.Proofs Require Import VecP NurbsP NurbsP2 NurbsP3 BoehmP InsertP KnotsP InsertCurveP SplitP SplitP2 SurfP.
Open Scope R_scope.

(** ** Knots *)
Lemma std_ends U l : standardize_knot_vector U = Ok l -> hd 0 l = 0 /\ last l 0 = 1.
Proof.
  unfold standardize_knot_vector. destruct U as [|x t]; [discriminate|]. destruct (Reqb (last (x :: t) 0 - x) 0) eqn:E; [discriminate|].
  intros H. apply Ok_inj in H. subst l. assert (last (x :: t) 0 - x <> 0) by (intros H; apply Reqb_spec in H; congruence).
  split; [cbn [map hd]; unfold Rminus; rewrite Rplus_opp_r; unfold Rdiv; ring|].
  set (d := last (x :: t) 0 - x) in *. destruct (@exists_last _ (x :: t)) as (m & y & EQ); [discriminate|].
  assert (y = last (x :: t) 0) by (rewrite EQ, last_last; reflexivity). rewrite EQ. rewrite map_app. cbn [map]. rewrite last_last.
  subst y. unfold d in *. field. assumption.
Qed.
Lemma std_id U : hd 0 U = 0 -> last U 0 = 1 -> standardize_knot_vector U = Ok U.
Proof.
  intros H0 H1. destruct U as [|x t]; [cbn in H1; lra|]. cbn [hd] in H0. subst x. unfold standardize_knot_vector. rewrite H1.
  assert (Reqb (1 - 0) 0 = false) as ->. { destruct (Reqb (1 - 0) 0) eqn:E; [|reflexivity]. apply Reqb_spec in E. lra. }
  f_equal. rewrite <- (map_id (0 :: t)) at 2. apply map_ext. intros. field.
Qed.
Lemma std_km kv : separated eps15 kv -> sorted_knots kv -> hd 0 kv < last kv 0 ->
  exists ks, standardize_knot_vector (fst (get_knots_and_multiplicities kv)) = Ok ks /\
    expand_knots ks (snd (get_knots_and_multiplicities kv)) = map (aff (hd 0 kv) (last kv 0 - hd 0 kv)) kv /\
    hd 0 ks = 0 /\ last ks 0 = 1.
Proof.
  intros HS Hso Hlt. destruct (rebuild 0 [] None kv HS Hso Hlt) as (c & A & B & _).
  unfold bcurve_new in A. destruct (standardize_knot_vector _) as [ks|] eqn:E; [|discriminate]. apply Ok_inj in A. subst c.
  exists ks. split; [reflexivity|]. split; [exact B|]. eapply std_ends; eassumption.
Qed.
Lemma aff01 kv : map (aff 0 (1 - 0)) kv = kv.
Proof. rewrite <- (map_id kv) at 2. apply map_ext. intros. unfold aff. field. Qed.

(** ** A surface rebuilt from a net of (weighted) points *)
Definition rdim (s : bsurf) : nat := match bs_w s with Some _ => 4 | None => 3 end.
Definition good_net (s : bsurf) (C : list point) : Prop :=
  dims (rdim s) C /\ (bs_w s <> None -> forall q, In q C -> 0 < nth 3 q 0).
Lemma cpts_good s : valid_surface s -> good_net s (cpts s) /\ length (cpts s) = (bs_nu s * bs_nv s)%nat.
Proof.
  intros (HU & HV & HL & HD & HW). unfold good_net, rdim, cpts. destruct (bs_w s) as [w|].
  - destruct HW as [HWl HWp]. split; [split|].
    + apply (ctrlptsw_dims _ w 3). exact HD.
    + intros _ q Hq. apply (In_nth _ _ []) in Hq as (i & Hi & <-). rewrite ctrlptsw_length in Hi by lia.
      rewrite (ctrlptsw_weight _ w 3) by (try lia; apply HD, nth_In; lia). apply HWp, nth_In. lia.
    + rewrite ctrlptsw_length by lia. assumption.
  - split; [split; [exact HD|intros H; contradiction]|assumption].
Qed.
Lemma from_net_ok s C nu nv um vm uk vk uk' vk' :
  standardize_knot_vector uk = Ok uk' -> standardize_knot_vector vk = Ok vk' ->
  valid_kv (bs_du s) nu (expand_knots uk' um) -> valid_kv (bs_dv s) nv (expand_knots vk' vm) ->
  length C = (nu * nv)%nat -> good_net s C ->
  exists s', surf_from_net s C nu nv um vm uk vk = Ok s' /\ valid_surface s' /\
    bs_du s' = bs_du s /\ bs_dv s' = bs_dv s /\ bs_nu s' = nu /\ bs_nv s' = nv /\
    bs_uk s' = uk' /\ bs_vk s' = vk' /\ bs_um s' = um /\ bs_vm s' = vm /\ cpts s' = C /\ (bs_w s' = None <-> bs_w s = None).
Proof.
  intros EU EV HU HV HL [HD HP]. unfold surf_from_net, bsurf_new. rewrite EU, EV. cbn [bind].
  unfold rdim in HD. destruct (bs_w s) as [w|] eqn:EW.
  - assert (HP' : forall q, In q C -> 0 < nth 3 q 0) by (apply HP; discriminate). clear HP.
    pose proof (sep_ctrlptsw C 3 HD (fun q Hq => Rgt_not_eq _ _ (HP' q Hq))) as ES.
    pose proof (sep_dims C 3 HD) as ED. pose proof (sep_len C) as [EL1 EL2].
    assert (PW : forall x, In x (snd (separate_ctrlpts_weights C)) -> 0 < x).
    { intros x Hx. cbn in Hx. apply in_map_iff in Hx as (q & <- & Hq). rewrite (last_nth_R q 0 3) by (apply HD; assumption). apply HP'. assumption. }
    destruct (separate_ctrlpts_weights C) as [Pn wn]. cbn [fst snd] in *. eexists. split; [reflexivity|].
    cbn [bs_du bs_dv bs_nu bs_nv bs_uk bs_vk bs_um bs_vm bs_w]. repeat (split; [reflexivity|]) || idtac.
    split.
    + unfold valid_surface, knots_vector_u, knots_vector_v. cbn [bs_du bs_dv bs_nu bs_nv bs_uk bs_vk bs_um bs_vm bs_w bs_pts].
      split; [assumption|]. split; [assumption|]. split; [lia|]. split; [exact ED|]. split; [lia|exact PW].
    + repeat (split; [reflexivity|]). split; [exact ES|]. split; discriminate.
  - eexists. split; [reflexivity|]. cbn [bs_du bs_dv bs_nu bs_nv bs_uk bs_vk bs_um bs_vm bs_w]. split.
    + unfold valid_surface, knots_vector_u, knots_vector_v. cbn [bs_du bs_dv bs_nu bs_nv bs_uk bs_vk bs_um bs_vm bs_w bs_pts].
      split; [assumption|]. split; [assumption|]. split; [lia|]. split; [exact HD|trivial].
    + repeat (split; [reflexivity|]). reflexivity.
Qed.
Lemma same_pt s s' u v u' v' : valid_surface s -> valid_surface s' -> (bs_w s' = None <-> bs_w s = None) ->
  (forall j, (j < rdim s)%nat -> hsurf s' j u' v' = hsurf s j u v) -> surface_point s' u' v' = surface_point s u v.
Proof.
  intros H1 H2 HW HE. unfold surface_point. apply map_ext_in. intros j Hj. apply in_seq in Hj.
  rewrite !surface_at_hs by (auto; lia). unfold rdim in HE. destruct (bs_w s), (bs_w s'); try (exfalso; destruct HW as [W1 W2]; discriminate (W1 eq_refl) || discriminate (W2 eq_refl)).
  - rewrite !HE by lia. reflexivity.
  - apply HE. lia.
Qed.

(** ** The span and multiplicity of a parameter in one direction *)
Lemma span_data_kv p n U u : valid_kv p n U -> separated eps15 (u :: U) -> nth p U 0 <= u < nth n U 0 ->
  let m := occurrences u U in let k := find_span_linear p U n u in
  find_multiplicity u U = m /\ (p <= k < n)%nat /\ nth k U 0 <= u < nth (k + 1) U 0 /\ (m <= k + 1)%nat /\
  (forall i, (k + 1 - m <= i <= k)%nat -> nth i U 0 = u) /\ (forall i, (i < k + 1 - m)%nat -> nth i U 0 < u).
Proof.
  intros HV HS Hu. cbn zeta. pose proof HV as (HL & Hp & Hso & Hl).
  destruct (find_span_linear_domain _ _ _ _ HV Hu) as [Hk Hku]. destruct (separated_tail _ _ _ HS) as [HS1 HS2].
  set (k := find_span_linear _ _ _ _) in *. split; [apply find_multiplicity_occ, HS2|]. split; [assumption|]. split; [assumption|].
  destruct (occ_span u U k Hso) as (A & B & C); [lia|lra| |split; [assumption|split; assumption]].
  intros i Hi. apply Rlt_le_trans with (nth (k + 1) U 0); [lra|apply Hso; lia].
Qed.

(** ** Full insertion into one list of (weighted) points *)
Definition ins (p : nat) (U : list R) (P : list point) (u : R) (k num : nat) : list point :=
  map (Qv p U P u k num) (seq 0 (length P + num)).
Lemma ins_len p U P u k num : length (ins p U P u k num) = (length P + num)%nat.
Proof. unfold ins. rewrite map_length, seq_length. reflexivity. Qed.
Lemma ins_facts p U P u k num d : valid_kv p (length P) U -> (p <= k < length P)%nat -> nth k U 0 <= u < nth (k + 1) U 0 ->
  (forall i, (k - (p - num) < i <= k)%nat -> nth i U 0 = u) -> (1 <= num <= p)%nat -> dims d P ->
  knot_insertion p U P u num (p - num) k = ins p U P u k num /\ dims d (ins p U P u k num) /\
  (forall j x, (j < d)%nat -> nth p U 0 <= x <= nth (length P) U 0 ->
     bspline_coord p (knot_insertion_kv U u k num) (ins p U P u k num) j x = bspline_coord p U P j x) /\
  (forall j, (j < d)%nat -> (forall q, In q P -> 0 < nth j q 0) -> forall q, In q (ins p U P u k num) -> 0 < nth j q 0).
Proof.
  intros HV Hk Hu Hm Hn HD. split; [|split; [|split]].
  - apply (knot_insertion_full p U P u num (p - num) k d); auto; lia.
  - apply (knot_insertion_dims p U P u num k d); auto; try lia.
  - intros j x Hj Hx. apply (knot_insertion_bspline p U P u num k d); auto; try lia.
  - intros j Hj HP q Hq. unfold ins in Hq. apply in_map_iff in Hq as (i & <- & Hi). apply in_seq in Hi. unfold Qv.
    rewrite (dim0 p P num k d) by (auto; lia). rewrite seq_map_nth by lia.
    apply (Qf_pos p U P u num k); auto; try lia. intros i0 Hi0. unfold coordP. cbn [Nat.add]. apply HP, nth_In. assumption.
Qed.

Lemma kv_dom p n U u k r : valid_kv p n U -> (p <= k < n)%nat ->
  nth p (knot_insertion_kv U u k r) 0 = nth p U 0 /\ nth (n + r) (knot_insertion_kv U u k r) 0 = nth n U 0.
Proof.
  intros (HL & Hp & _) Hk. split.
  - change (knots_of (knot_insertion_kv U u k r) p = knots_of U p). rewrite kv_knots_of by lia. apply insR_le. lia.
  - change (knots_of (knot_insertion_kv U u k r) (n + r) = knots_of U n). rewrite kv_knots_of by lia. rewrite insR_gt by lia. f_equal. lia.
Qed.

Lemma col_len C nu nv k : length (col C nu nv k) = nu. Proof. unfold col. rewrite map_length, seq_length. reflexivity. Qed.
Lemma row_len C nv i : length (row C nv i) = nv. Proof. unfold row. rewrite map_length, seq_length. reflexivity. Qed.
Lemma col_in C nu nv k q : length C = (nu * nv)%nat -> (k < nv)%nat -> In q (col C nu nv k) -> In q C.
Proof. intros HL Hk H. apply in_map_iff in H as (i & <- & Hi). apply in_seq in Hi. apply nth_In. rewrite HL. apply idx_lt; lia. Qed.
Lemma row_in C nu nv i q : length C = (nu * nv)%nat -> (i < nu)%nat -> In q (row C nv i) -> In q C.
Proof. intros HL Hk H. apply in_map_iff in H as (k & <- & Hi). apply in_seq in Hi. apply nth_In. rewrite HL. apply idx_lt; lia. Qed.

(** ** insert_u *)
Section InsU.
Variables (s : bsurf) (u : R) (num : nat).
Hypothesis HVS : valid_surface s.
Let U := knots_vector_u s.
Let p := bs_du s.
Let nu := bs_nu s.
Let nv := bs_nv s.
Let k := find_span_linear p U nu u.
Hypothesis HS : separated eps15 (u :: U).
Hypothesis Hu : nth p U 0 <= u < nth nu U 0.
Hypothesis Hnum : (1 <= num)%nat.
Hypothesis Hfull : (occurrences u U + num = p)%nat.

Lemma insU_col j : (j < nv)%nat ->
  let cj := col (cpts s) nu nv j in
  knot_insertion p U (map (fun i => cpt (cpts s) (j + nv * i)) (seq 0 nu)) u num (find_multiplicity u U) k = ins p U cj u k num /\
  dims (rdim s) (ins p U cj u k num) /\
  (forall c x, (c < rdim s)%nat -> nth p U 0 <= x <= nth nu U 0 ->
     bspline_coord p (knot_insertion_kv U u k num) (ins p U cj u k num) c x = bspline_coord p U cj c x) /\
  (bs_w s <> None -> forall q, In q (ins p U cj u k num) -> 0 < nth 3 q 0).
Proof.
  intros Hj. cbn zeta. pose proof HVS as (HU & HV & _). destruct (span_data_kv p nu U u HU HS Hu) as (Hmul & Hk & Hku & _ & Hrun & _). cbn zeta in *. fold k in Hk, Hku, Hrun.
  destruct (cpts_good s HVS) as [[HD HP] HL]. fold nu nv in HL.
  change (map (fun i => cpt (cpts s) (j + nv * i)) (seq 0 nu)) with (col (cpts s) nu nv j).
  pose proof (ins_facts p U (col (cpts s) nu nv j) u k num (rdim s)) as F. rewrite col_len in F.
  destruct F as (F1 & F2 & F3 & F4); auto; try lia.
  - intros i Hi. apply Hrun. lia.
  - intros q Hq. apply HD. eapply col_in; eauto.
  - split; [rewrite Hmul; replace (occurrences u U) with (p - num)%nat by lia; exact F1|]. split; [assumption|]. split; [assumption|].
    intros HW. apply F4; [unfold rdim; destruct (bs_w s); [lia|contradiction]|]. intros q Hq. apply HP; [assumption|]. eapply col_in; eauto.
Qed.
Let C' := insert_points_u s u num.
Lemma insU_len : length C' = ((nu + num) * nv)%nat. Proof. apply flip_len. Qed.
Lemma insU_nth i j : (i < nu + num)%nat -> (j < nv)%nat -> nth (j + nv * i) C' [] = nth i (ins p U (col (cpts s) nu nv j) u k num) [].
Proof.
  intros Hi Hj. unfold C', insert_points_u. fold p U nu nv k. rewrite flip_nth by assumption.
  rewrite flat_nth; auto.
  - cbn [Nat.add]. f_equal. apply (insU_col j Hj).
  - intros x Hx. rewrite (proj1 (insU_col x ltac:(lia))). rewrite ins_len, col_len. reflexivity.
Qed.
Lemma insU_colC j : (j < nv)%nat -> col C' (nu + num) nv j = ins p U (col (cpts s) nu nv j) u k num.
Proof.
  intros Hj. apply nth_ext with (d := []) (d' := []); [rewrite col_len, ins_len, col_len; reflexivity|]. rewrite col_len. intros i Hi.
  unfold col at 1. rewrite seq_map_nth by assumption. apply insU_nth; assumption.
Qed.
Lemma insU_good : good_net s C'.
Proof.
  assert (H : forall q, In q C' -> exists j, (j < nv)%nat /\ In q (ins p U (col (cpts s) nu nv j) u k num)).
  { intros q Hq. apply (In_nth _ _ []) in Hq as (x & Hx & <-). rewrite insU_len in Hx. destruct (idx_split _ _ _ Hx) as (i & j & Hi & Hj & ->).
    exists j. split; [assumption|]. rewrite insU_nth by assumption. apply nth_In. rewrite ins_len, col_len. assumption. }
  split.
  - intros q Hq. destruct (H q Hq) as (j & Hj & Hin). destruct (insU_col j Hj) as (_ & D & _). apply D, Hin.
  - intros HW q Hq. destruct (H q Hq) as (j & Hj & Hin). destruct (insU_col j Hj) as (_ & _ & _ & D). apply D; assumption.
Qed.
Lemma insU_spec b : normalized_surface s ->
  exists s', insert_u s u num b = Ok s' /\ valid_surface s' /\ normalized_surface s' /\ same_surface s s' /\
    knots_vector_u s' = knot_insertion_kv U u k num /\ knots_vector_v s' = knots_vector_v s /\
    bs_nu s' = (nu + num)%nat /\ bs_nv s' = nv /\ cpts s' = C' /\ (bs_w s' = None <-> bs_w s = None) /\ bs_vk s' = bs_vk s /\ bs_vm s' = bs_vm s.
Proof.
  intros [(N1 & N2 & N3 & N4) (N5 & N6 & N7 & N8)].
  pose proof HVS as (HU & HV & _). fold p nu U in HU. destruct (span_data_kv p nu U u HU HS Hu) as (Hmul & Hk & Hku & _ & Hrun & _). cbn zeta in *. fold k in Hk, Hku, Hrun.
  pose proof HU as (HL & Hp & Hso & Hl).
  set (kv := knot_insertion_kv U u k num).
  assert (HVk : valid_kv p (nu + num) kv) by (apply kv_insertion_valid; [assumption|lia|assumption]).
  pose proof (kv_insertion_ends U u k num ltac:(lia)) as [E0 E1]. fold kv in E0, E1. fold U in N3, N4. rewrite nth_hd in N3. rewrite N3 in E0. rewrite N4 in E1.
  assert (HSk : separated eps15 kv) by (eapply separated_incl; [intros x Hx; eapply kv_insertion_in; [|exact Hx]; lia|exact HS]).
  destruct (std_km kv HSk) as (ks & A1 & A2 & A3 & A4); [apply HVk|lra|]. rewrite E0, E1, aff01 in A2.
  assert (Hch : b && (Z.of_nat p - Z.of_nat (find_multiplicity u U) <? Z.of_nat num)%Z = false).
  { rewrite Hmul. destruct b; [|reflexivity]. apply Z.ltb_ge. lia. }
  pose proof (std_id _ N5 N6) as SV. destruct (get_knots_and_multiplicities kv) as [ks0 ms0] eqn:EG. cbn [fst snd] in *.
  destruct (from_net_ok s C' (nu + num) nv ms0 (bs_vm s) ks0 (bs_vk s) ks (bs_vk s) A1 SV) as (s' & S1 & S2 & S3 & S4 & S5 & S6 & S7 & S8 & S9 & S10 & S11 & S12).
  { rewrite A2. exact HVk. } { exact HV. } { apply insU_len. } { apply insU_good. }
  assert (KU : knots_vector_u s' = kv) by (unfold knots_vector_u; rewrite S7, S9; exact A2).
  assert (KV : knots_vector_v s' = knots_vector_v s) by (unfold knots_vector_v; rewrite S8, S10; reflexivity).
  exists s'. split.
  { unfold insert_u. fold p U nu nv k. rewrite Hch. destruct num as [|n']; [lia|]. fold kv. rewrite EG. exact S1. }
  split; [assumption|]. split.
  { split; unfold unit_knots.
    - rewrite KU, S7, nth_hd. auto.
    - rewrite KV, S8. auto. }
  split.
  { split; [assumption|]. split; [assumption|]. intros x y Hx Hy. unfold in_u_domain, in_v_domain in *. rewrite S3, S4, S5, S6, KU, KV.
    destruct (kv_dom p nu U u k num HU Hk) as [D1 D2]. fold p nu U kv. fold kv in D1, D2. rewrite D1, D2. split; [assumption|]. split; [assumption|].
    apply same_pt; auto. intros j Hj. unfold hsurf. rewrite S3, S4, S5, S6, KU, KV, S11. fold p nu nv U. rewrite !hs_cols. apply Rsum_ext. intros m Hm. f_equal.
    rewrite insU_colC by assumption. apply (insU_col m Hm); assumption. }
  repeat (split; [assumption|]). assumption.
Qed.
End InsU.

(** ** insert_v *)
Section InsV.
Variables (s : bsurf) (v : R) (num : nat).
Hypothesis HVS : valid_surface s.
Let V := knots_vector_v s.
Let q := bs_dv s.
Let nu := bs_nu s.
Let nv := bs_nv s.
Let k := find_span_linear q V nv v.
Hypothesis HS : separated eps15 (v :: V).
Hypothesis Hv : nth q V 0 <= v < nth nv V 0.
Hypothesis Hnum : (1 <= num)%nat.
Hypothesis Hfull : (occurrences v V + num = q)%nat.

Lemma insV_row i : (i < nu)%nat ->
  let ri := row (cpts s) nv i in
  knot_insertion q V (map (fun j => cpt (cpts s) (j + nv * i)) (seq 0 nv)) v num (find_multiplicity v V) k = ins q V ri v k num /\
  dims (rdim s) (ins q V ri v k num) /\
  (forall c x, (c < rdim s)%nat -> nth q V 0 <= x <= nth nv V 0 ->
     bspline_coord q (knot_insertion_kv V v k num) (ins q V ri v k num) c x = bspline_coord q V ri c x) /\
  (bs_w s <> None -> forall y, In y (ins q V ri v k num) -> 0 < nth 3 y 0).
Proof.
  intros Hi. cbn zeta. pose proof HVS as (HU & HV & _). destruct (span_data_kv q nv V v HV HS Hv) as (Hmul & Hk & Hku & _ & Hrun & _). cbn zeta in *. fold k in Hk, Hku, Hrun.
  destruct (cpts_good s HVS) as [[HD HP] HL]. fold nu nv in HL.
  change (map (fun j => cpt (cpts s) (j + nv * i)) (seq 0 nv)) with (row (cpts s) nv i).
  pose proof (ins_facts q V (row (cpts s) nv i) v k num (rdim s)) as F. rewrite row_len in F.
  destruct F as (F1 & F2 & F3 & F4); auto; try lia.
  - intros x Hx. apply Hrun. lia.
  - intros y Hy. apply HD. eapply row_in; eauto.
  - split; [rewrite Hmul; replace (occurrences v V) with (q - num)%nat by lia; exact F1|]. split; [assumption|]. split; [assumption|].
    intros HW. apply F4; [unfold rdim; destruct (bs_w s); [lia|contradiction]|]. intros y Hy. apply HP; [assumption|]. eapply row_in; eauto.
Qed.
Let C' := insert_points_v s v num.
Lemma insV_len : length C' = (nu * (nv + num))%nat.
Proof.
  unfold C', insert_points_v. fold q V nu nv k. apply flat_len. intros i Hi. rewrite (proj1 (insV_row i ltac:(lia))). rewrite ins_len, row_len. reflexivity.
Qed.
Lemma insV_nth i j : (i < nu)%nat -> (j < nv + num)%nat -> nth (j + (nv + num) * i) C' [] = nth j (ins q V (row (cpts s) nv i) v k num) [].
Proof.
  intros Hi Hj. unfold C', insert_points_v. fold q V nu nv k. rewrite flat_nth; auto.
  - cbn [Nat.add]. f_equal. apply (insV_row i Hi).
  - intros x Hx. rewrite (proj1 (insV_row x ltac:(lia))). rewrite ins_len, row_len. reflexivity.
Qed.
Lemma insV_rowC i : (i < nu)%nat -> row C' (nv + num) i = ins q V (row (cpts s) nv i) v k num.
Proof.
  intros Hi. apply nth_ext with (d := []) (d' := []); [rewrite row_len, ins_len, row_len; reflexivity|]. rewrite row_len. intros j Hj.
  unfold row at 1. rewrite seq_map_nth by assumption. apply insV_nth; assumption.
Qed.
Lemma insV_good : good_net s C'.
Proof.
  assert (H : forall y, In y C' -> exists i, (i < nu)%nat /\ In y (ins q V (row (cpts s) nv i) v k num)).
  { intros y Hy. apply (In_nth _ _ []) in Hy as (x & Hx & <-). rewrite insV_len in Hx. destruct (idx_split _ _ _ Hx) as (i & j & Hi & Hj & ->).
    exists i. split; [assumption|]. rewrite insV_nth by assumption. apply nth_In. rewrite ins_len, row_len. assumption. }
  split.
  - intros y Hy. destruct (H y Hy) as (j & Hj & Hin). destruct (insV_row j Hj) as (_ & D & _). apply D, Hin.
  - intros HW y Hy. destruct (H y Hy) as (j & Hj & Hin). destruct (insV_row j Hj) as (_ & _ & _ & D). apply D; assumption.
Qed.
Lemma insV_spec b : normalized_surface s ->
  exists s', insert_v s v num b = Ok s' /\ valid_surface s' /\ normalized_surface s' /\ same_surface s s' /\
    knots_vector_v s' = knot_insertion_kv V v k num /\ knots_vector_u s' = knots_vector_u s /\
    bs_nv s' = (nv + num)%nat /\ bs_nu s' = nu /\ cpts s' = C' /\ (bs_w s' = None <-> bs_w s = None) /\ bs_uk s' = bs_uk s /\ bs_um s' = bs_um s.
Proof.
  intros [(N5 & N6 & N7 & N8) (N1 & N2 & N3 & N4)].
  pose proof HVS as (HU & HV & _). fold q nv V in HV. destruct (span_data_kv q nv V v HV HS Hv) as (Hmul & Hk & Hku & _ & Hrun & _). cbn zeta in *. fold k in Hk, Hku, Hrun.
  pose proof HV as (HL & Hp & Hso & Hl).
  set (kv := knot_insertion_kv V v k num).
  assert (HVk : valid_kv q (nv + num) kv) by (apply kv_insertion_valid; [assumption|lia|assumption]).
  pose proof (kv_insertion_ends V v k num ltac:(lia)) as [E0 E1]. fold kv in E0, E1. fold V in N3, N4. rewrite nth_hd in N3. rewrite N3 in E0. rewrite N4 in E1.
  assert (HSk : separated eps15 kv) by (eapply separated_incl; [intros x Hx; eapply kv_insertion_in; [|exact Hx]; lia|exact HS]).
  destruct (std_km kv HSk) as (ks & A1 & A2 & A3 & A4); [apply HVk|lra|]. rewrite E0, E1, aff01 in A2.
  assert (Hch : b && (Z.of_nat q - Z.of_nat (find_multiplicity v V) <? Z.of_nat num)%Z = false).
  { rewrite Hmul. destruct b; [|reflexivity]. apply Z.ltb_ge. lia. }
  pose proof (std_id _ N5 N6) as SU. destruct (get_knots_and_multiplicities kv) as [ks0 ms0] eqn:EG. cbn [fst snd] in *.
  destruct (from_net_ok s C' nu (nv + num) (bs_um s) ms0 (bs_uk s) ks0 (bs_uk s) ks SU A1) as (s' & S1 & S2 & S3 & S4 & S5 & S6 & S7 & S8 & S9 & S10 & S11 & S12).
  { exact HU. } { rewrite A2. exact HVk. } { apply insV_len. } { apply insV_good. }
  assert (KV : knots_vector_v s' = kv) by (unfold knots_vector_v; rewrite S8, S10; exact A2).
  assert (KU : knots_vector_u s' = knots_vector_u s) by (unfold knots_vector_u; rewrite S7, S9; reflexivity).
  exists s'. split.
  { unfold insert_v. fold q V nu nv k. rewrite Hch. destruct num as [|n']; [lia|]. fold kv. rewrite EG. exact S1. }
  split; [assumption|]. split.
  { split; unfold unit_knots.
    - rewrite KU, S7. auto.
    - rewrite KV, S8, nth_hd. auto. }
  split.
  { split; [assumption|]. split; [assumption|]. intros x y Hx Hy. unfold in_u_domain, in_v_domain in *. rewrite S3, S4, S5, S6, KU, KV.
    destruct (kv_dom q nv V v k num HV Hk) as [D1 D2]. fold q nv V kv. fold kv in D1, D2. rewrite D1, D2. split; [assumption|]. split; [assumption|].
    apply same_pt; auto. intros j Hj. unfold hsurf. rewrite S3, S4, S5, S6, KU, KV, S11. fold q nu nv V. rewrite !hs_rows. apply Rsum_ext. intros m Hm. f_equal.
    rewrite insV_rowC by assumption. apply (insV_row m Hm); assumption. }
  repeat (split; [assumption|]). assumption.
Qed.
End InsV.
