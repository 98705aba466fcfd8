(** B-spline surfaces: refinement of the knot vectors; concrete surfaces. *)
From Coq Require Import Lia Lra Psatz.
From Verif.Model Require Import RBase Nurbs NurbsSurf.
From Verif.Spec Require Import NurbsSpec CurveSpec SurfSpec.
From Verif.Proofs Require Import VecP NurbsP NurbsP2 NurbsP3 BoehmP InsertP KnotsP InsertCurveP SplitP SplitP2 SurfP SurfP2 SurfP3 SurfP4 CurveExP.
Open Scope R_scope.

Lemma occ_repeat x u r : occurrences x (repeat u r) = if Req_EM_T u x then r else 0%nat.
Proof. unfold occurrences. induction r; cbn [repeat count_occ]; [destruct (Req_EM_T u x); reflexivity|]. destruct (Req_EM_T u x); rewrite IHr; reflexivity. Qed.
Lemma occ_insert x U u k r : (k < length U)%nat -> occurrences x (knot_insertion_kv U u k r) = (occurrences x U + if Req_EM_T u x then r else 0)%nat.
Proof.
  intros Hk. rewrite kv_insertion_explicit by assumption. rewrite !occ_app, occ_repeat. rewrite <- (firstn_skipn (k + 1) U) at 3. rewrite occ_app. lia.
Qed.


(** One step of the v loop. *)
Lemma refine_v_step t v : valid_surface t -> normalized_surface t -> (1 <= bs_dv t)%nat -> separated eps15 (v :: knots_vector_v t) ->
  nth (bs_dv t) (knots_vector_v t) 0 < v < nth (bs_nv t) (knots_vector_v t) 0 -> (occurrences v (knots_vector_v t) <= bs_dv t)%nat ->
  exists t', insert_knot_surface t None (Some v) 0 (bs_dv t - find_multiplicity v (knots_vector_v t)) false = Ok t' /\
    valid_surface t' /\ normalized_surface t' /\ same_surface t t' /\ v_domain t' = v_domain t /\ knots_vector_u t' = knots_vector_u t /\ bs_nu t' = bs_nu t /\
    (forall x, In x (knots_vector_v t') -> In x (v :: knots_vector_v t)) /\
    (forall x, occurrences x (knots_vector_v t') = if Req_EM_T v x then bs_dv t else occurrences x (knots_vector_v t)).
Proof.
  intros HVS HN Hp HS Hv Hocc. pose proof HVS as (HU & HV & _). destruct (separated_tail _ _ _ HS) as [HS1 HS2].
  rewrite (find_multiplicity_occ v _ HS2). set (r := (bs_dv t - occurrences v (knots_vector_v t))%nat).
  unfold insert_knot_surface. cbn [bind]. destruct (Nat.eq_dec r 0) as [E|E].
  - exists t. rewrite E. split; [reflexivity|]. split; [assumption|]. split; [assumption|]. split; [apply same_surface_refl|]. split; [reflexivity|].
    split; [reflexivity|]. split; [reflexivity|]. split; [intros x Hx; right; assumption|]. intros x. destruct (Req_EM_T v x) as [<-|]; [unfold r in E; lia|reflexivity].
  - destruct (insV_spec t v r HVS HS) with (b := false) as (t' & A & B & C & D & F & E1 & H & G & _); auto; try lra; try (unfold r in *; lia).
    destruct (span_data_kv _ _ _ v HV HS ltac:(lra)) as (_ & Hk & _). cbn zeta in Hk. pose proof HV as (HL & _).
    exists t'. split; [assumption|]. split; [assumption|]. split; [assumption|]. split; [assumption|].
    split. { rewrite (v_domain_eq t HVS), (v_domain_eq t' B). pose proof D as (_ & -> & _). rewrite F, H.
      destruct (kv_dom _ _ _ v (find_span_linear (bs_dv t) (knots_vector_v t) (bs_nv t) v) r HV Hk) as [-> ->]. reflexivity. }
    split; [assumption|]. split; [assumption|]. rewrite F. split.
    + intros x Hx. eapply kv_insertion_in; [|exact Hx]. lia.
    + intros x. rewrite occ_insert by lia. destruct (Req_EM_T v x) as [<-|]; [unfold r; lia|lia].
Qed.
Lemma refine_v_all vs : forall t, valid_surface t -> normalized_surface t -> (1 <= bs_dv t)%nat -> separated eps15 (vs ++ knots_vector_v t) ->
  (forall v, In v vs -> fst (v_domain t) < v < snd (v_domain t) /\ (occurrences v (knots_vector_v t) <= bs_dv t)%nat) ->
  exists t', refine_v (v_domain t) t vs = Ok t' /\ valid_surface t' /\ normalized_surface t' /\ same_surface t t' /\ knots_vector_u t' = knots_vector_u t /\
    forall x, occurrences x (knots_vector_v t') = if in_dec Req_EM_T x vs then bs_dv t else occurrences x (knots_vector_v t).
Proof.
  induction vs as [|v vs IH]; intros t HVS HN Hp HS Hin.
  - exists t. split; [reflexivity|]. split; [assumption|]. split; [assumption|]. split; [apply same_surface_refl|]. split; [reflexivity|]. intros x. reflexivity.
  - destruct (Hin v (or_introl eq_refl)) as [Hv Hocc]. rewrite (v_domain_eq t HVS) in Hv. cbn [fst snd] in Hv.
    destruct (refine_v_step t v HVS HN Hp) as (t1 & A & B & C & D & E & F & G & H & I); auto.
    { eapply separated_incl; [|exact HS]. intros x [<-|Hx]; [left; reflexivity|]. right. apply in_or_app. right. assumption. }
    pose proof D as (D1 & D2 & D3). destruct (IH t1 B C) as (t' & A' & B' & C' & E' & F' & G').
    { rewrite D2. assumption. }
    { eapply separated_incl; [|exact HS]. intros x Hx. apply in_app_or in Hx as [Hx|Hx]; [right; apply in_or_app; left; assumption|].
      destruct (H x Hx) as [<-|Hx']; [left; reflexivity|right; apply in_or_app; right; assumption]. }
    { intros x Hx. rewrite E. destruct (Hin x (or_intror Hx)) as [K1 K2]. split; [assumption|]. rewrite I, D2. destruct (Req_EM_T v x); [lia|assumption]. }
    exists t'. split.
    { cbn [refine_v]. rewrite (v_domain_eq t HVS). cbn [fst snd].
      assert (X1 : Reqb v (nth (bs_dv t) (knots_vector_v t) 0) = false) by (apply Reqb_ne; lra).
      assert (X2 : Reqb v (nth (bs_nv t) (knots_vector_v t) 0) = false) by (apply Reqb_ne; lra).
      rewrite X1, X2. cbn [orb]. rewrite A. cbn [bind]. rewrite <- (v_domain_eq t HVS), <- E. exact A'. }
    split; [assumption|]. split; [assumption|]. split; [eapply same_surface_trans; eassumption|]. split; [congruence|].
    intros x. rewrite G', D2, I. destruct (in_dec Req_EM_T x vs) as [Hx|Hx], (in_dec Req_EM_T x (v :: vs)) as [Hx'|Hx'].
    + reflexivity.
    + exfalso. apply Hx'. right. assumption.
    + destruct Hx' as [<-|]; [|contradiction]. destruct (Req_EM_T v v); [reflexivity|contradiction].
    + destruct (Req_EM_T v x) as [<-|]; [exfalso; apply Hx'; left; reflexivity|reflexivity].
Qed.
(** refine_knot_vector_surface with at most one u and any list of v. *)
Lemma insert_u_full s u : valid_surface s -> normalized_surface s -> inner_u s u ->
  exists t, insert_knot_surface s (Some u) None (bs_du s - find_multiplicity u (knots_vector_u s)) 0 false = Ok t /\ valid_surface t /\ normalized_surface t /\
    same_surface s t /\ v_domain t = v_domain s /\ knots_vector_v t = knots_vector_v s /\ bs_nv t = bs_nv s /\
    (forall x, occurrences x (knots_vector_u t) = if Req_EM_T u x then bs_du s else occurrences x (knots_vector_u s)).
Proof.
  intros HVS HN (Hp & HS & Hu & Hocc). pose proof HVS as (HU & HV & _). destruct (separated_tail _ _ _ HS) as [HS1 HS2].
  rewrite (find_multiplicity_occ u _ HS2). set (r := (bs_du s - occurrences u (knots_vector_u s))%nat).
  unfold insert_knot_surface. destruct (Nat.eq_dec r 0) as [E|E].
  - exists s. rewrite E. split; [reflexivity|]. split; [assumption|]. split; [assumption|]. split; [apply same_surface_refl|]. split; [reflexivity|].
    split; [reflexivity|]. split; [reflexivity|]. intros x. destruct (Req_EM_T u x) as [<-|]; [unfold r in E; lia|reflexivity].
  - destruct (insU_spec s u r HVS HS) with (b := false) as (t & A & B & C & D & E1 & F & G & H & _); auto; try lra; try (unfold r in *; lia).
    destruct (span_data_kv _ _ _ u HU HS ltac:(lra)) as (_ & Hk & _). cbn zeta in Hk. pose proof HU as (HL & _).
    exists t. rewrite A. cbn [bind]. split; [reflexivity|]. split; [assumption|]. split; [assumption|]. split; [assumption|].
    split. { rewrite (v_domain_eq s HVS), (v_domain_eq t B). pose proof D as (_ & -> & _). rewrite F, H. reflexivity. }
    split; [assumption|]. split; [assumption|]. rewrite E1. intros x. rewrite occ_insert by lia. destruct (Req_EM_T u x) as [<-|]; [unfold r; lia|lia].
Qed.
Lemma refine_u_last s us u : valid_surface s -> normalized_surface s -> (forall x, In x (us ++ [u]) -> inner_u s x) -> forall tmp,
  refine_u s tmp (us ++ [u]) = insert_knot_surface s (Some u) None (bs_du s - find_multiplicity u (knots_vector_u s)) 0 false.
Proof.
  intros HVS HN. assert (HB : forall x, inner_u s x -> Reqb x (fst (u_domain s)) || Reqb x (snd (u_domain s)) = false).
  { intros x (_ & _ & Hx & _). rewrite (u_domain_eq s HVS). cbn [fst snd].
    assert (X1 : Reqb x (nth (bs_du s) (knots_vector_u s) 0) = false) by (apply Reqb_ne; lra).
    assert (X2 : Reqb x (nth (bs_nu s) (knots_vector_u s) 0) = false) by (apply Reqb_ne; lra). rewrite X1, X2. reflexivity. }
  induction us as [|x us IH]; intros Hin tmp; cbn [app refine_u].
  - rewrite (HB u (Hin u (or_introl eq_refl))). destruct (insert_u_full s u HVS HN (Hin u (or_introl eq_refl))) as (t & -> & _). reflexivity.
  - rewrite (HB x (Hin x (or_introl eq_refl))). destruct (insert_u_full s x HVS HN (Hin x (or_introl eq_refl))) as (t & -> & _). cbn [bind].
    apply IH. intros y Hy. apply Hin. right. assumption.
Qed.
(** What refinement does: all the v knots, the last u knot. *)
Lemma refine_actual s us u vs : valid_surface s -> normalized_surface s -> (1 <= bs_dv s)%nat -> (forall x, In x (us ++ [u]) -> inner_u s x) ->
  separated eps15 (vs ++ knots_vector_v s) -> (forall v, In v vs -> inner_v s v) ->
  exists t, refine_knot_vector_surface s (us ++ [u]) vs = Ok t /\ valid_surface t /\ normalized_surface t /\ same_surface s t /\
    (forall x, occurrences x (knots_vector_u t) = if Req_EM_T u x then bs_du s else occurrences x (knots_vector_u s)) /\
    (forall x, occurrences x (knots_vector_v t) = if in_dec Req_EM_T x vs then bs_dv s else occurrences x (knots_vector_v s)).
Proof.
  intros HVS HN Hp Hus HS Hvs. destruct (insert_u_full s u HVS HN (Hus u ltac:(apply in_or_app; right; left; reflexivity))) as (t1 & A & B & C & D & E & F & G & H).
  pose proof D as (D1 & D2 & D3).
  destruct (refine_v_all vs t1 B C) as (t & A' & B' & C' & D' & E' & F').
  { rewrite D2. assumption. } { rewrite F. assumption. }
  { intros v Hv. destruct (Hvs v Hv) as (_ & _ & K1 & K2). rewrite E, F, D2, (v_domain_eq s HVS). split; assumption. }
  exists t. split; [|split; [assumption|split; [assumption|split; [eapply same_surface_trans; eassumption|]]]].
  - unfold refine_knot_vector_surface. rewrite (refine_u_last s us u HVS HN Hus), A. cbn [bind]. rewrite <- E. exact A'.
  - split; [intros x; rewrite E'; apply H|]. intros x. rewrite F', D2, F. reflexivity.
Qed.
Lemma refine_v_only s vs : valid_surface s -> normalized_surface s -> (1 <= bs_dv s)%nat ->
  separated eps15 (vs ++ knots_vector_v s) -> (forall v, In v vs -> inner_v s v) ->
  exists t, refine_knot_vector_surface s [] vs = Ok t /\ valid_surface t /\ normalized_surface t /\ same_surface s t /\
    knots_vector_u t = knots_vector_u s /\
    (forall x, occurrences x (knots_vector_v t) = if in_dec Req_EM_T x vs then bs_dv s else occurrences x (knots_vector_v s)).
Proof.
  intros HVS HN Hp HS Hvs. destruct (refine_v_all vs s HVS HN Hp HS) as (t & A' & B' & C' & D' & E' & F').
  { intros v Hv. destruct (Hvs v Hv) as (_ & _ & K1 & K2). rewrite (v_domain_eq s HVS). split; assumption. }
  exists t. split; [exact A'|]. tauto.
Qed.

(** ** Concrete surfaces *)
Definition bil : bsurf := mkbsurf 1 1 [[0;0;0];[0;1;0];[1;0;0];[1;1;1]] 2 2 [2;2]%nat [2;2]%nat [0;1] [0;1] None.
Definition bilw : bsurf := mkbsurf 1 1 [[0;0;0];[0;1;0];[1;0;0];[1;1;1]] 2 2 [2;2]%nat [2;2]%nat [0;1] [0;1] (Some [1;2;1;1]).
Definition kv001h11 : list R := [0; 0; 1/2; 1; 1].
(** two rows of three points *)
Definition bil3 : bsurf := mkbsurf 1 1 [[0;0;0];[0;1;0];[0;2;1];[1;0;0];[1;1;1];[1;2;0]] 2 3 [2;2]%nat [2;1;2]%nat [0;1] [0;1/2;1] None.
Lemma pts3 (s : bsurf) : forallb (fun P => Nat.eqb (length P) 3) (bs_pts s) = true -> forall P, In P (bs_pts s) -> length P = 3%nat.
Proof. intros H P HP. rewrite forallb_forall in H. apply Nat.eqb_eq, H, HP. Qed.
Lemma bil_valid : valid_surface bil.
Proof. split; [exact kv0011_valid|]. split; [exact kv0011_valid|]. split; [reflexivity|]. split; [apply (pts3 bil); reflexivity|exact I]. Qed.
Lemma bilw_valid : valid_surface bilw.
Proof. split; [exact kv0011_valid|]. split; [exact kv0011_valid|]. split; [reflexivity|]. split; [apply (pts3 bilw); reflexivity|]. split; [reflexivity|].
  intros x [<-|[<-|[<-|[<-|[]]]]]; lra. Qed.
Lemma bil_norm : normalized_surface bil. Proof. split; repeat split. Qed.
Lemma bilw_norm : normalized_surface bilw. Proof. split; repeat split. Qed.
Lemma bil3_valid : valid_surface bil3.
Proof. split; [exact kv0011_valid|]. split; [split; [reflexivity|]; split; [cbn; lia|]; split; [apply nondecb_sorted; cbn; lra|cbn; lra]|].
  split; [reflexivity|]. split; [apply (pts3 bil3); reflexivity|exact I]. Qed.
Lemma bil3_norm : normalized_surface bil3. Proof. split; repeat split. Qed.
Lemma e15_small : 0 < / 10 ^ 15 < / 10.
Proof.
  assert (E : 10 ^ 15 = IZR 1000000000000000) by (rewrite (pow_IZR 10 15); reflexivity). rewrite E.
  split; [apply Rinv_0_lt_compat; lra|]. apply Rinv_lt_contravar; lra.
Qed.
Ltac sep := let x := fresh "a" in let y := fresh "b" in let Hx := fresh "Ha" in let Hy := fresh "Hb" in
  try unfold eps15; pose proof e15_small; intros x Hx y Hy; cbn in Hx, Hy;
  repeat (destruct Hx as [Hx|Hx]; [subst x|]); try contradiction; repeat (destruct Hy as [Hy|Hy]; [subst y|]); try contradiction;
  first [left; lra | right; unfold Rabs; destruct (Rcase_abs _); lra].
Lemma occ_zero x l : ~ In x l -> occurrences x l = 0%nat.
Proof. intros H. apply occ_none. intros y Hy ->. contradiction. Qed.
Lemma bil_inner x : / 10 < x < 1 - / 10 -> inner_u bil x /\ inner_v bil x.
Proof.
  intros Hx. assert (K : (1 <= 1)%nat /\ separated (/ 10 ^ 15) (x :: [0; 0; 1; 1]) /\ 0 < x < 1 /\ (occurrences x [0; 0; 1; 1]%R <= 1)%nat).
  { split; [lia|]. split; [sep|]. split; [lra|]. rewrite occ_zero; [lia|]. cbn. intros H. lra. }
  split; exact K.
Qed.
Lemma bil_full x : / 10 < x < 1 - / 10 -> full_u bil x 1 /\ full_v bil x 1.
Proof.
  intros Hx. assert (K : separated (/ 10 ^ 15) (x :: [0; 0; 1; 1]) /\ 0 <= x < 1 /\ (1 <= 1)%nat /\ (occurrences x [0; 0; 1; 1]%R + 1 = 1)%nat).
  { split; [sep|]. split; [lra|]. split; [lia|]. rewrite occ_zero; [lia|]. cbn. intros H. lra. }
  split; exact K.
Qed.
Lemma bilw_inner x : / 10 < x < 1 - / 10 -> inner_u bilw x /\ inner_v bilw x.
Proof. exact (bil_inner x). Qed.
Lemma bil3_inner : inner_u bil3 (1 / 2).
Proof. exact (proj1 (bil_inner (1 / 2) ltac:(lra))). Qed.
Lemma bil_dom x : 0 <= x <= 1 -> in_u_domain bil x /\ in_v_domain bil x /\ in_u_domain bilw x /\ in_v_domain bilw x.
Proof. intros H. assert (nth 1 [0;0;1;1] 0 <= x <= nth 2 [0;0;1;1] 0) by (cbn; lra). repeat split; cbn in *; lra. Qed.
Lemma bil_clamped : clamped_kv 1 2 (knots_vector_u bil) /\ clamped_kv 1 2 (knots_vector_v bil).
Proof.
  assert (K : clamped_kv 1 2 [0;0;1;1]).
  { split; [intros [|[|i]] Hi; try reflexivity; lia|]. split; [|cbn; lra]. intros [|[|[|[|i]]]] Hi; try reflexivity; lia. }
  split; exact K.
Qed.
(** Refining bil at u = 1/4 and u = 1/2 inserts only 1/2. *)
Lemma refine_loses_knots : exists s us t, valid_surface s /\ normalized_surface s /\ (forall u, In u us -> inner_u s u) /\
  refine_knot_vector_surface s us [] = Ok t /\ exists u, In u us /\ ~ In u (knots_vector_u t).
Proof.
  exists bil, ([1/4] ++ [1/2]). destruct (refine_actual bil [1/4] (1/2) [] bil_valid bil_norm) as (t & A & B & C & D & E & F).
  - cbn. lia.
  - intros x [<-|[<-|[]]]; apply bil_inner; lra.
  - cbn [app]. change (knots_vector_v bil) with [0; 0; 1; 1]. sep.
  - intros v [].
  - exists t. split; [apply bil_valid|]. split; [apply bil_norm|]. split; [intros x [<-|[<-|[]]]; apply bil_inner; lra|]. split; [exact A|].
    exists (1/4). split; [left; reflexivity|]. intros HI. apply (count_occ_In Req_EM_T) in HI. specialize (E (1/4)). unfold occurrences in E at 1. rewrite E in HI.
    destruct (Req_EM_T (1 / 2) (1 / 4)); [lra|]. rewrite occ_zero in HI; [lia|]. cbn. intros H. lra.
Qed.
Lemma iso_curve_wrong : exists s u c, valid_surface s /\ normalized_surface s /\ inner_u s u /\ extract_surface_curve_u s u = Ok c /\ ~ valid_curve c.
Proof.
  exists bil3, (1/2). unfold extract_surface_curve_u.
  destruct (extract_surface_curve_u bil3 (1/2)) as [c|e] eqn:EE.
  - exists c. split; [apply bil3_valid|]. split; [apply bil3_norm|]. split; [apply bil3_inner|]. split; [exact EE|].
    destruct bil3_inner as (K1 & K2 & K3 & K4). apply (iso_u_ill bil3 (1/2) c bil3_valid bil3_norm K1 K2 K3 K4 EE). cbn. lia.
  - exfalso. unfold extract_surface_curve_u in EE. rewrite (u_domain_eq bil3 bil3_valid) in EE. cbn [fst snd] in EE.
    assert (X1 : Reqb (1/2) (nth (bs_du bil3) (knots_vector_u bil3) 0) = false) by (apply Reqb_ne; cbn; lra).
    assert (X2 : Reqb (1/2) (nth (bs_nu bil3) (knots_vector_u bil3) 0) = false) by (apply Reqb_ne; cbn; lra). rewrite X1, X2 in EE. cbn [orb] in EE.
    unfold curve_from_points, bcurve_new in EE. cbn [bs_w bil3] in EE. cbn [bs_uk] in EE. rewrite std_id in EE by reflexivity. discriminate.
Qed.
Lemma border_wrong : exists s c, valid_surface s /\ normalized_surface s /\ boundary_u s 0 = Ok c /\ ~ valid_curve c.
Proof.
  exists bil3. destruct (boundary_u bil3 0) as [c|e] eqn:EE.
  - exists c. split; [apply bil3_valid|]. split; [apply bil3_norm|]. split; [reflexivity|]. apply (boundary_u_ill bil3 0 c bil3_valid bil3_norm); [cbn; lia|exact EE].
  - exfalso. unfold boundary_u, bcurve_new in EE. cbn [bs_uk bil3] in EE. rewrite std_id in EE by reflexivity. discriminate.
Qed.
(** Bookkeeping, stated on nets. *)
Lemma control_points_table_rows s : valid_surface s ->
  length (control_points_table s) = bs_nu s /\ forall i, (i < bs_nu s)%nat ->
    length (nth i (control_points_table s) []) = bs_nv s /\ forall k, (k < bs_nv s)%nat -> nth k (nth i (control_points_table s) []) [] = point_ik s i k.
Proof.
  intros (HU & HV & HL & _). assert (0 < bs_nv s)%nat by (destruct HV as (_ & X & _); lia). unfold control_points_table. rewrite (table_loop_spec _ H (bs_nu s)) by assumption.
  split; [apply reshape_len|]. intros i Hi. split; [apply (reshape_rows (bs_pts s) (bs_nu s)), nth_In; rewrite reshape_len; assumption|].
  intros k Hk. rewrite reshape_nth by assumption. reflexivity.
Qed.
Lemma flip_spec C nu nv : length C = (nu * nv)%nat ->
  length (flip_ctrlpts_u C nu nv) = (nu * nv)%nat /\ forall i k, (i < nu)%nat -> (k < nv)%nat -> nth (k + nv * i) (flip_ctrlpts_u C nu nv) [] = nth (i + nu * k) C [].
Proof. intros _. split; [apply flip_len|]. intros. apply flip_nth; assumption. Qed.
Lemma flip_flip C nu nv : length C = (nu * nv)%nat -> flip_ctrlpts_u (flip_ctrlpts_u C nu nv) nv nu = C.
Proof.
  intros HL. apply nth_ext with (d := []) (d' := []); [rewrite flip_len; lia|]. rewrite flip_len. intros x Hx.
  destruct (idx_split nv nu x Hx) as (k & i & Hk & Hi & ->). rewrite flip_nth by assumption. rewrite flip_nth by assumption. reflexivity.
Qed.
Lemma flatten_spec T nv : (forall row, In row T -> length row = nv) ->
  length (ctrlpts2d_to_ctrlpts T) = (length T * nv)%nat /\
  forall i k, (i < length T)%nat -> (k < nv)%nat -> nth (k + nv * i) (ctrlpts2d_to_ctrlpts T) [] = nth k (nth i T []) [].
Proof. intros H. split; [apply flatten_len; assumption|]. intros. apply flatten_nth; assumption. Qed.
Lemma separate_weighted P w Q d : (forall q, In q P -> length q = d) -> length w = length P -> (forall x, In x w -> 0 < x) -> weighted P w Q ->
  separate_ctrlpts_weights Q = (P, w).
Proof.
  intros HD HL HW [HQ1 HQ2].
  assert (EQ : Q = ctrlptsw P w).
  { apply nth_ext with (d := []) (d' := []); [rewrite ctrlptsw_length by lia; assumption|]. intros i Hi. rewrite ctrlptsw_nth by lia. apply HQ2. lia. }
  subst Q. clear HQ1 HQ2. revert w HL HW. induction P as [|q P IH]; intros [|x w] HL HW; try discriminate; [reflexivity|].
  cbn [length] in HL. specialize (IH (fun q Hq => HD q (or_intror Hq)) w ltac:(lia) (fun x Hx => HW x (or_intror Hx))).
  unfold separate_ctrlpts_weights in *. cbn [ctrlptsw combine map fst snd]. unfold ctrlptsw in IH. injection IH as I1 I2.
  rewrite last_last, removelast_last. apply (f_equal2 pair); [|f_equal; assumption]. apply (f_equal2 cons); [|assumption].
  unfold pscale. rewrite map_map. rewrite <- (map_id q) at 2. apply map_ext. intros y. field. apply Rgt_not_eq, HW. left. reflexivity.
Qed.

(** ** Final statements *)
Lemma split_u_final s u : valid_surface s -> normalized_surface s -> inner_u s u ->
  exists s1 s2, split_surface_u s u = Ok (s1, s2) /\ valid_surface s1 /\ valid_surface s2 /\ normalized_surface s1 /\ normalized_surface s2 /\ split_u_ok s s1 s2 u.
Proof. intros HV HN (K1 & K2 & K3 & K4). apply split_u_spec; assumption. Qed.
Lemma split_v_final s v : valid_surface s -> normalized_surface s -> inner_v s v ->
  exists s1 s2, split_surface_v s v = Ok (s1, s2) /\ valid_surface s1 /\ valid_surface s2 /\ normalized_surface s1 /\ normalized_surface s2 /\ split_v_ok s s1 s2 v.
Proof. intros HV HN (K1 & K2 & K3 & K4). apply split_v_spec; assumption. Qed.
Lemma iso_u_final s u : valid_surface s -> normalized_surface s -> inner_u s u ->
  bs_du s = bs_dv s -> bs_um s = bs_vm s -> bs_uk s = bs_vk s ->
  exists c, extract_surface_curve_u s u = Ok c /\ valid_curve c /\ iso_curve_u s c u.
Proof. intros HV HN (K1 & K2 & K3 & K4). apply iso_u_same; assumption. Qed.
Lemma iso_v_final s v : valid_surface s -> normalized_surface s -> inner_v s v ->
  bs_du s = bs_dv s -> bs_um s = bs_vm s -> bs_uk s = bs_vk s ->
  exists c, extract_surface_curve_v s v = Ok c /\ valid_curve c /\ iso_curve_v s c v.
Proof. intros HV HN (K1 & K2 & K3 & K4). apply iso_v_same; assumption. Qed.
Lemma iso_u_points s u c : valid_surface s -> normalized_surface s -> inner_u s u -> extract_surface_curve_u s u = Ok c ->
  bc_degree c = bs_du s /\ knotvector c = knots_vector_u s /\ length (bc_ctrlpts c) = bs_nv s /\
  iso_curve_u s (mkbcurve (bs_dv s) (bc_ctrlpts c) (bs_vm s) (bs_vk s) (bc_weights c)) u.
Proof. intros HV HN (K1 & K2 & K3 & K4). apply iso_u_actual; assumption. Qed.
Lemma iso_v_points s v c : valid_surface s -> normalized_surface s -> inner_v s v -> extract_surface_curve_v s v = Ok c ->
  bc_degree c = bs_dv s /\ knotvector c = knots_vector_v s /\ length (bc_ctrlpts c) = bs_nu s /\
  iso_curve_v s (mkbcurve (bs_du s) (bc_ctrlpts c) (bs_um s) (bs_uk s) (bc_weights c)) v.
Proof. intros HV HN (K1 & K2 & K3 & K4). apply iso_v_actual; assumption. Qed.
Lemma iso_u_never_valid s u c : valid_surface s -> normalized_surface s -> inner_u s u -> extract_surface_curve_u s u = Ok c -> bs_nu s <> bs_nv s -> ~ valid_curve c.
Proof. intros HV HN (K1 & K2 & K3 & K4). apply iso_u_ill; assumption. Qed.
Lemma insert_too_many_u s u num : separated_from (/ 10 ^ 15) u (knots_vector_u s) -> (bs_du s < occurrences u (knots_vector_u s) + num)%nat -> (1 <= num)%nat ->
  insert_knot_surface s (Some u) None num 0 true = Err ValueError.
Proof. intros A B C. unfold insert_knot_surface. rewrite (insert_u_too_many s u num A B C). reflexivity. Qed.
Lemma insert_too_many_v s v num : separated_from (/ 10 ^ 15) v (knots_vector_v s) -> (bs_dv s < occurrences v (knots_vector_v s) + num)%nat -> (1 <= num)%nat ->
  insert_knot_surface s None (Some v) 0 num true = Err ValueError.
Proof. intros A B C. unfold insert_knot_surface. cbn [bind]. apply insert_v_too_many; assumption. Qed.
Lemma border_curves s i c : valid_surface s -> normalized_surface s -> (i < bs_nu s)%nat ->
  bs_du s = bs_dv s -> bs_um s = bs_vm s -> bs_uk s = bs_vk s -> clamped_kv (bs_du s) (bs_nu s) (knots_vector_u s) ->
  (i = 0%nat /\ c = nth (bs_du s) (knots_vector_u s) 0) \/ (i = (bs_nu s - 1)%nat /\ c = nth (bs_nu s) (knots_vector_u s) 0) ->
  exists cv, boundary_u s i = Ok cv /\ valid_curve cv /\ iso_curve_u s cv c.
Proof. intros HV HN Hi A B C HC H. rewrite boundary_u_same by assumption. apply border_rows; assumption. Qed.
Lemma border_curves_v s j c : valid_surface s -> normalized_surface s -> (j < bs_nv s)%nat ->
  bs_du s = bs_dv s -> bs_um s = bs_vm s -> bs_uk s = bs_vk s -> clamped_kv (bs_dv s) (bs_nv s) (knots_vector_v s) ->
  (j = 0%nat /\ c = nth (bs_dv s) (knots_vector_v s) 0) \/ (j = (bs_nv s - 1)%nat /\ c = nth (bs_nv s) (knots_vector_v s) 0) ->
  exists cv, boundary_v s j = Ok cv /\ valid_curve cv /\ iso_curve_v s cv c.
Proof. intros HV HN Hi A B C HC H. rewrite boundary_v_same by assumption. apply border_cols; assumption. Qed.
Lemma new_normalized du dv P nu nv um vm uk vk w s : bsurf_new du dv P nu nv um vm uk vk w = Ok s ->
  s = mkbsurf du dv P nu nv um vm (bs_uk s) (bs_vk s) w /\
  bs_uk s = map (fun k => (k - hd 0 uk) / (last uk 0 - hd 0 uk)) uk /\ bs_vk s = map (fun k => (k - hd 0 vk) / (last vk 0 - hd 0 vk)) vk /\
  hd 0 (bs_uk s) = 0 /\ last (bs_uk s) 0 = 1 /\ hd 0 (bs_vk s) = 0 /\ last (bs_vk s) 0 = 1.
Proof.
  unfold bsurf_new. intros H. destruct (standardize_knot_vector uk) as [uk'|] eqn:E1; [|discriminate]. cbn [bind] in H.
  destruct (standardize_knot_vector vk) as [vk'|] eqn:E2; [|discriminate]. cbn [bind] in H. apply Ok_inj in H. subst s. cbn [bs_uk bs_vk].
  assert (X : forall U l, standardize_knot_vector U = Ok l -> l = map (fun k => (k - hd 0 U) / (last U 0 - hd 0 U)) U).
  { intros U l HU. unfold standardize_knot_vector in HU. destruct U as [|a U']; [discriminate|]. destruct (Reqb _ 0); [discriminate|]. apply Ok_inj in HU. subst l. reflexivity. }
  destruct (std_ends _ _ E1), (std_ends _ _ E2). split; [reflexivity|]. split; [apply X; assumption|]. split; [apply X; assumption|]. tauto.
Qed.
