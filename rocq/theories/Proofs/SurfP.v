(** B-spline surfaces: control net bookkeeping and evaluation. *)
From Coq Require Import Lia Lra Psatz.
From Verif.Model Require Import RBase Nurbs NurbsSurf.
From Verif.Spec Require Import NurbsSpec CurveSpec SurfSpec.
From Verif.Proofs Require Import VecP NurbsP NurbsP2 NurbsP3 BoehmP InsertP KnotsP InsertCurveP SplitP SplitP2.
Open Scope R_scope.

(** ** Grids flattened row by row *)
Lemma flat_len {A} (g : nat -> list A) nv : forall nu a, (forall i, (a <= i < a + nu)%nat -> length (g i) = nv) ->
  length (flat_map g (seq a nu)) = (nu * nv)%nat.
Proof.
  induction nu; intros a H; [reflexivity|]. cbn [seq flat_map]. rewrite app_length, (H a) by lia. rewrite IHnu by (intros; apply H; lia). lia.
Qed.
Lemma flat_nth {A} (g : nat -> list A) nv d : forall nu a i k, (forall i, (a <= i < a + nu)%nat -> length (g i) = nv) ->
  (i < nu)%nat -> (k < nv)%nat -> nth (k + nv * i) (flat_map g (seq a nu)) d = nth k (g (a + i)%nat) d.
Proof.
  induction nu; intros a i k H Hi Hk; [lia|]. cbn [seq flat_map]. destruct i as [|i].
  - rewrite Nat.mul_0_r, !Nat.add_0_r. apply app_nth1. rewrite (H a) by lia. assumption.
  - rewrite app_nth2 by (rewrite (H a) by lia; nia). rewrite (H a) by lia.
    replace (k + nv * S i - nv)%nat with (k + nv * i)%nat by nia. rewrite IHnu by (auto; try lia; intros; apply H; lia).
    f_equal. f_equal. lia.
Qed.
Lemma idx_lt nu nv i k : (i < nu)%nat -> (k < nv)%nat -> (k + nv * i < nu * nv)%nat.
Proof. nia. Qed.
(** Every position of a flat net is a pair of indices. *)
Lemma idx_split nu nv x : (x < nu * nv)%nat -> exists i k, (i < nu)%nat /\ (k < nv)%nat /\ x = (k + nv * i)%nat.
Proof.
  intros H. destruct nv as [|nv]; [lia|]. exists (x / S nv)%nat, (x mod S nv)%nat. split; [apply Nat.div_lt_upper_bound; lia|].
  split; [apply Nat.mod_upper_bound; lia|]. pose proof (Nat.div_mod x (S nv)). lia.
Qed.

Lemma flip_len C nu nv : length (flip_ctrlpts_u C nu nv) = (nu * nv)%nat.
Proof. apply flat_len. intros. rewrite map_length, seq_length. reflexivity. Qed.
Lemma flip_nth C nu nv i k : (i < nu)%nat -> (k < nv)%nat -> nth (k + nv * i) (flip_ctrlpts_u C nu nv) [] = nth (i + nu * k) C [].
Proof.
  intros Hi Hk. unfold flip_ctrlpts_u. rewrite flat_nth by (auto; intros; rewrite map_length, seq_length; reflexivity).
  rewrite seq_map_nth by assumption. unfold cpt. f_equal. cbn [Nat.add]. lia.
Qed.
Lemma flatten_len (T : list (list point)) nv : (forall row, In row T -> length row = nv) ->
  length (ctrlpts2d_to_ctrlpts T) = (length T * nv)%nat.
Proof.
  intros H. destruct T as [|r T']; [reflexivity|]. unfold ctrlpts2d_to_ctrlpts. apply flat_len. intros i Hi. rewrite map_length, seq_length.
  apply H. left. reflexivity.
Qed.
Lemma flatten_nth (T : list (list point)) nv i k : (forall row, In row T -> length row = nv) -> (i < length T)%nat -> (k < nv)%nat ->
  nth (k + nv * i) (ctrlpts2d_to_ctrlpts T) [] = nth k (nth i T []) [].
Proof.
  intros H Hi Hk. unfold ctrlpts2d_to_ctrlpts.
  assert (E : length (nth 0 T []) = nv) by (apply H, nth_In; lia). rewrite E.
  rewrite flat_nth by (auto; intros; rewrite map_length, seq_length; reflexivity). rewrite seq_map_nth by assumption. reflexivity.
Qed.
Lemma reshape_nth C nu nv i k : (i < nu)%nat -> (k < nv)%nat -> nth k (nth i (reshape C nu nv) []) [] = nth (k + nv * i) C [].
Proof. intros Hi Hk. unfold reshape. rewrite seq_map_nth by assumption. rewrite seq_map_nth by assumption. reflexivity. Qed.
Lemma reshape_rows C nu nv row : In row (reshape C nu nv) -> length row = nv.
Proof. intros H. apply in_map_iff in H as (i & <- & _). rewrite map_length, seq_length. reflexivity. Qed.
Lemma reshape_len C nu nv : length (reshape C nu nv) = nu.
Proof. unfold reshape. rewrite map_length, seq_length. reflexivity. Qed.
(** Reshaping and flattening again. *)
Lemma reshape_flatten C nu nv : length C = (nu * nv)%nat -> (0 < nv)%nat -> ctrlpts2d_to_ctrlpts (reshape C nu nv) = C.
Proof.
  intros HL Hv. assert (L : length (ctrlpts2d_to_ctrlpts (reshape C nu nv)) = (nu * nv)%nat).
  { rewrite (flatten_len _ nv) by (intros; eapply reshape_rows; eassumption). rewrite reshape_len. reflexivity. }
  apply nth_ext with (d := []) (d' := []); [lia|]. intros x Hx. rewrite L in Hx. destruct (idx_split _ _ _ Hx) as (i & k & Hi & Hk & ->).
  rewrite flatten_nth by (auto; try (intros; eapply reshape_rows; eassumption); rewrite reshape_len; assumption).
  apply reshape_nth; assumption.
Qed.

(** control_points_table *)
Lemma table_loop_full nv : forall pts row i, (i + length pts <= nv)%nat -> length pts = (nv - i)%nat -> forall rest,
  (1 <= i)%nat -> length row = (i - 1)%nat -> forall x,
  table_loop nv (pts ++ x :: rest) row i = (row ++ pts ++ [x]) :: table_loop nv rest [] 1.
Proof.
  induction pts as [|p t IH]; intros row i H1 H2 rest Hi Hr x.
  - cbn [length] in *. cbn [app table_loop]. assert ((i =? nv)%nat = true) as -> by (apply Nat.eqb_eq; lia). reflexivity.
  - cbn [length] in *. cbn [app table_loop]. assert ((i =? nv)%nat = false) as -> by (apply Nat.eqb_neq; lia).
    rewrite IH by (rewrite ?app_length; cbn [length]; lia). rewrite <- app_assoc. reflexivity.
Qed.
Lemma table_loop_spec nv : (0 < nv)%nat -> forall nu pts, length pts = (nu * nv)%nat -> table_loop nv pts [] 1 = reshape pts nu nv.
Proof.
  intros Hv. induction nu; intros pts HL.
  - destruct pts; [reflexivity|cbn in HL; lia].
  - assert (E : pts = firstn (nv - 1) pts ++ nth (nv - 1) pts [] :: skipn nv pts).
    { rewrite <- (firstn_skipn (nv - 1) pts) at 1. f_equal. replace nv with (S (nv - 1)) at 3 by lia.
      assert (X : (nv - 1 < length pts)%nat) by nia. generalize (nv - 1)%nat, X. clear. induction pts as [|a t IH]; intros n H; [cbn in H; lia|].
      destruct n; [reflexivity|]. cbn [skipn nth]. apply IH. cbn in H. lia. }
    rewrite E at 1. rewrite table_loop_full; try (rewrite ?firstn_length; nia); [|reflexivity].
    rewrite IHnu by (rewrite skipn_length; nia). cbn [app]. unfold reshape. cbn [seq map]. f_equal.
    + apply nth_ext with (d := []) (d' := []).
      * rewrite app_length, firstn_length, map_length, seq_length. cbn. nia.
      * intros k Hk. rewrite app_length, firstn_length in Hk. cbn [length] in Hk. rewrite seq_map_nth by nia. unfold cpt. rewrite Nat.mul_0_r, Nat.add_0_r. cbn [Nat.add].
        destruct (Nat.eq_dec k (nv - 1)) as [->|Hne].
        -- rewrite app_nth2 by (rewrite firstn_length; lia). rewrite firstn_length, Nat.min_l by nia. rewrite Nat.sub_diag. reflexivity.
        -- rewrite app_nth1 by (rewrite firstn_length; nia). apply firstn_nth. nia.
    + rewrite <- seq_shift. rewrite map_map. apply map_ext. intros i. apply map_ext. intros k. unfold cpt. rewrite skipn_nth. f_equal. lia.
Qed.

(** ** The surface as a sum of curves *)
Definition hs (p q : nat) (U V : list R) (nu nv : nat) (C : list point) (j : nat) (u v : R) : R :=
  Rsum (fun i => Rsum (fun k => bfun p U nu i u * bfun q V nv k v * nth j (nth (k + nv * i) C []) 0) nv) nu.
Definition col (C : list point) (nu nv k : nat) : list point := map (fun i => nth (k + nv * i) C []) (seq 0 nu).
Definition row (C : list point) (nv i : nat) : list point := map (fun k => nth (k + nv * i) C []) (seq 0 nv).
Lemma Rsum_swap f n m : Rsum (fun i => Rsum (fun k => f i k) m) n = Rsum (fun k => Rsum (fun i => f i k) n) m.
Proof.
  induction n.
  - rewrite Rsum_0. symmetry. apply Rsum_zero. reflexivity.
  - rewrite Rsum_S, IHn. rewrite <- Rsum_plus. apply Rsum_ext. intros. rewrite Rsum_S. reflexivity.
Qed.
Lemma hs_cols p q U V nu nv C j u v :
  hs p q U V nu nv C j u v = Rsum (fun k => bfun q V nv k v * bspline_coord p U (col C nu nv k) j u) nv.
Proof.
  unfold hs. rewrite Rsum_swap. apply Rsum_ext. intros k Hk. unfold bspline_coord. rewrite <- Rsum_scal.
  unfold col. rewrite map_length, seq_length. apply Rsum_ext. intros i Hi. rewrite seq_map_nth by assumption. unfold bfun. cbn [Nat.add]. ring.
Qed.
Lemma hs_rows p q U V nu nv C j u v :
  hs p q U V nu nv C j u v = Rsum (fun i => bfun p U nu i u * bspline_coord q V (row C nv i) j v) nu.
Proof.
  unfold hs. apply Rsum_ext. intros i Hi. unfold bspline_coord. rewrite <- Rsum_scal.
  unfold row. rewrite map_length, seq_length. apply Rsum_ext. intros k Hk. rewrite seq_map_nth by assumption. unfold bfun. cbn [Nat.add]. ring.
Qed.
Definition hsurf (s : bsurf) (j : nat) (u v : R) : R :=
  hs (bs_du s) (bs_dv s) (knots_vector_u s) (knots_vector_v s) (bs_nu s) (bs_nv s) (cpts s) j u v.
Lemma surface_at_hs s j u v : valid_surface s -> (j < 3)%nat ->
  surface_at s j u v = match bs_w s with Some _ => hsurf s j u v / hsurf s 3 u v | None => hsurf s j u v end.
Proof.
  intros (HU & HV & HL & HD & HW) Hj. unfold surface_at, hsurf, hs, cpts, point_ik, weight_ik. destruct (bs_w s) as [w|]; [|reflexivity].
  destruct HW as [HWl _]. unfold Rdiv; apply (f_equal2 Rmult); [|apply (f_equal Rinv)]; apply Rsum_ext; intros i Hi; apply Rsum_ext; intros k Hk; pose proof (idx_lt _ _ _ _ Hi Hk) as X.
  - rewrite (ctrlptsw_coord _ w 3) by (try lia; apply HD, nth_In; lia). reflexivity.
  - rewrite (ctrlptsw_weight _ w 3) by (try lia; apply HD, nth_In; lia). reflexivity.
Qed.
Lemma hsurf_weight_pos s u v : valid_surface s -> in_u_domain s u -> in_v_domain s v -> bs_w s <> None -> 0 < hsurf s 3 u v.
Proof.
  intros (HU & HV & HL & HD & HW) Hu Hv Hr. destruct (bs_w s) as [w|] eqn:EW; [|contradiction]. destruct HW as [HWl HWp].
  unfold hsurf. rewrite hs_rows. unfold cpts. rewrite EW.
  (* a lower bound of the weights *)
  assert (HM : exists m, 0 < m /\ forall x, In x w -> m <= x).
  { clear - HWp. induction w as [|x t IH]; [exists 1; split; [lra|intros y []]|]. destruct IH as (m & Hm & H); [intros; apply HWp; right; assumption|].
    exists (Rmin x m). split; [apply Rmin_pos; [apply HWp; left; reflexivity|assumption]|]. intros y [<-|Hy]; [apply Rmin_l|].
    apply Rle_trans with m; [apply Rmin_r|auto]. }
  destruct HM as (m & Hm & Hmin).
  assert (R1 : forall i, (i < bs_nu s)%nat -> m <= bspline_coord (bs_dv s) (knots_vector_v s) (row (ctrlptsw (bs_pts s) w) (bs_nv s) i) 3 v).
  { intros i Hi. pose proof (coxdeboor_sum _ _ _ v HV Hv) as S. rewrite <- (Rmult_1_r m), <- S, <- Rsum_scal. unfold bspline_coord, row. rewrite map_length, seq_length.
    apply Rge_le, Rminus_ge, Rle_ge. rewrite <- (Rplus_0_r (Rsum _ _)). unfold Rminus.
    assert (Z : forall f g n, (forall k, (k < n)%nat -> g k <= f k) -> 0 <= Rsum f n + 0 + - Rsum g n).
    { clear. intros f g n H. assert (Rsum g n <= Rsum f n); [|lra]. induction n; [rewrite !Rsum_0; lra|]. rewrite !Rsum_S. pose proof (H n ltac:(lia)).
      assert (Rsum g n <= Rsum f n) by (apply IHn; intros; apply H; lia). lra. }
    apply Z. intros k Hk. rewrite seq_map_nth by assumption. cbn [Nat.add]. pose proof (idx_lt _ _ _ _ Hi Hk) as X.
    rewrite (ctrlptsw_weight _ w 3) by (try lia; apply HD, nth_In; lia).
    pose proof (coxdeboor_nonneg _ _ _ v k HV Hv Hk). assert (m <= nth (k + bs_nv s * i) w 0) by (apply Hmin, nth_In; lia). nra. }
  apply Rlt_le_trans with (m * 1); [lra|]. pose proof (coxdeboor_sum _ _ _ u HU Hu) as S. rewrite <- S, <- Rsum_scal. unfold bfun.
  assert (Z : forall f g n, (forall k, (k < n)%nat -> g k <= f k) -> Rsum g n <= Rsum f n).
  { clear. intros f g n H. induction n; [rewrite !Rsum_0; lra|]. rewrite !Rsum_S. pose proof (H n ltac:(lia)).
    assert (Rsum g n <= Rsum f n) by (apply IHn; intros; apply H; lia). lra. }
  apply Z. intros i Hi. pose proof (coxdeboor_nonneg _ _ _ u i HU Hu Hi). specialize (R1 i Hi). nra.
Qed.

(** ** Evaluation *)
Lemma surface_pt_spec p q U V C nu nv dim u v : valid_kv p nu U -> valid_kv q nv V ->
  nth p U 0 <= u <= nth nu U 0 -> nth q V 0 <= v <= nth nv V 0 ->
  surface_pt p q U V C nu nv dim u v = map (fun j => hs p q U V nu nv C j u v) (seq 0 dim).
Proof.
  intros HU HV Hu Hv. destruct (valid_facts p nu U u HU Hu) as (_ & Hs & _). destruct (valid_facts q nv V v HV Hv) as (_ & Ht & _). cbn zeta in *.
  pose proof (basis_coxdeboor p nu U u HU Hu) as BU. pose proof (basis_coxdeboor q nv V v HV Hv) as BV. cbn zeta in *.
  pose proof (coxdeboor_outside p nu U u) as OU. pose proof (coxdeboor_outside q nv V v) as OV.
  unfold surface_pt. set (su := find_span_linear p U nu u) in *. set (sv := find_span_linear q V nv v) in *. rewrite BU, BV. apply map_ext. intros d.
  rewrite sum_list_spec. change (fold_right Rplus 0 (map ?f (seq 0 (p + 1)))) with (Rsum f (p + 1)).
  unfold hs. rewrite (Rsum_window _ (su - p) (p + 1) nu); [|lia|].
  - apply Rsum_ext. intros k Hk. rewrite seq_map_nth by assumption. rewrite sum_list_spec.
    change (fold_right Rplus 0 (map ?f (seq 0 (q + 1)))) with (Rsum f (q + 1)).
    rewrite (Rsum_window _ (sv - q) (q + 1) nv); [|lia|].
    + rewrite <- Rsum_scal. apply Rsum_ext. intros m Hm. rewrite seq_map_nth by assumption. unfold bfun, cpt. ring.
    + intros m Hm Hout. unfold bfun at 2. rewrite (OV m HV Hv) by (fold sv; lia). ring.
  - intros k Hk Hout. apply Rsum_zero. intros m Hm. unfold bfun at 1. rewrite (OU k HU Hu) by (fold su; lia). ring.
Qed.
Lemma surface_eval_point s u v : valid_surface s -> in_u_domain s u -> in_v_domain s v ->
  match bs_w s with
  | Some _ => project 3 (surface_pt (bs_du s) (bs_dv s) (knots_vector_u s) (knots_vector_v s) (cpts s) (bs_nu s) (bs_nv s) 4 u v)
  | None => surface_pt (bs_du s) (bs_dv s) (knots_vector_u s) (knots_vector_v s) (cpts s) (bs_nu s) (bs_nv s) 3 u v
  end = surface_point s u v.
Proof.
  intros HVS Hu Hv. pose proof HVS as (HU & HV & _). rewrite !surface_pt_spec by assumption.
  unfold surface_point. destruct (bs_w s) as [w|] eqn:EW.
  - unfold project. apply map_ext_in. intros j Hj. apply in_seq in Hj. rewrite surface_at_hs by (auto; lia). rewrite EW.
    rewrite !seq_map_nth by lia. reflexivity.
  - apply map_ext_in. intros j Hj. apply in_seq in Hj. rewrite surface_at_hs by (auto; lia). rewrite EW. reflexivity.
Qed.
Lemma u_domain_eq s : valid_surface s -> u_domain s = (nth (bs_du s) (knots_vector_u s) 0, nth (bs_nu s) (knots_vector_u s) 0).
Proof. intros ((HL & _) & _). unfold u_domain, kn. rewrite HL. f_equal. f_equal. lia. Qed.
Lemma v_domain_eq s : valid_surface s -> v_domain s = (nth (bs_dv s) (knots_vector_v s) 0, nth (bs_nv s) (knots_vector_v s) 0).
Proof. intros (_ & (HL & _) & _). unfold v_domain, kn. rewrite HL. f_equal. f_equal. lia. Qed.
Lemma dom_le p n U : valid_kv p n U -> nth p U 0 <= nth n U 0.
Proof. intros (HL & Hp & Hs & _). apply Hs; lia. Qed.
Lemma point2d_to_3d_spec s u v : valid_surface s ->
  exists u' v', in_u_domain s u' /\ in_v_domain s v' /\ (in_u_domain s u -> u' = u) /\ (in_v_domain s v -> v' = v) /\
    point2d_to_3d s u v = surface_point s u' v'.
Proof.
  intros HVS. pose proof HVS as (HU & HV & _). pose proof (dom_le _ _ _ HU) as DU. pose proof (dom_le _ _ _ HV) as DV.
  unfold point2d_to_3d. rewrite (u_domain_eq s HVS), (v_domain_eq s HVS). cbn [fst snd].
  set (a := nth (bs_du s) _ 0) in *. set (b := nth (bs_nu s) _ 0) in *. set (c := nth (bs_dv s) _ 0) in *. set (d := nth (bs_nv s) _ 0) in *.
  set (u' := Rmin (Rmax u a) b). set (v' := Rmin (Rmax v c) d).
  assert (IU : in_u_domain s u') by (unfold in_u_domain, u', Rmin, Rmax; fold a b; destruct (Rle_dec u a); destruct (Rle_dec _ b); lra).
  assert (IV : in_v_domain s v') by (unfold in_v_domain, v', Rmin, Rmax; fold c d; destruct (Rle_dec v c); destruct (Rle_dec _ d); lra).
  exists u', v'. split; [assumption|]. split; [assumption|].
  split; [unfold in_u_domain, u', Rmin, Rmax; fold a b; intros; destruct (Rle_dec u a); destruct (Rle_dec _ b); lra|].
  split; [unfold in_v_domain, v', Rmin, Rmax; fold c d; intros; destruct (Rle_dec v c); destruct (Rle_dec _ d); lra|].
  rewrite <- (surface_eval_point s u' v' HVS IU IV). unfold evaluate_surface, evaluate_surface_c. rewrite !linspace_same. destruct (bs_w s); reflexivity.
Qed.
Lemma surface_evaluate_spec s a b : valid_surface s -> (2 <= a)%nat -> (2 <= b)%nat ->
  eps_lin < snd (u_domain s) - fst (u_domain s) -> eps_lin < snd (v_domain s) - fst (v_domain s) ->
  length (surface_evaluate s a b) = (a * b)%nat /\
  forall i k, (i < a)%nat -> (k < b)%nat ->
    nth (k + b * i) (surface_evaluate s a b) [] =
    surface_point s (fst (u_domain s) + INR i * (snd (u_domain s) - fst (u_domain s)) / INR (a - 1))
                    (fst (v_domain s) + INR k * (snd (v_domain s) - fst (v_domain s)) / INR (b - 1)).
Proof.
  intros HVS Ha Hb HdU HdV. pose proof HVS as (HU & HV & _).
  set (pu := fun i => fst (u_domain s) + INR i * (snd (u_domain s) - fst (u_domain s)) / INR (a - 1)).
  set (pv := fun k => fst (v_domain s) + INR k * (snd (v_domain s) - fst (v_domain s)) / INR (b - 1)).
  assert (HE : 0 < eps_lin) by (unfold eps_lin; assert (0 < / 10 ^ 8) by (apply Rinv_0_lt_compat; lra); lra).
  assert (FR : forall n i, (i < n)%nat -> (2 <= n)%nat -> 0 <= INR i / INR (n - 1) <= 1).
  { intros n i Hi Hn. assert (0 < INR (n - 1)) by (apply lt_0_INR; lia). assert (INR i <= INR (n - 1)) by (apply le_INR; lia). pose proof (pos_INR i).
    split; [apply Rmult_le_pos; [assumption|left; apply Rinv_0_lt_compat; assumption]|]. apply Rmult_le_reg_r with (INR (n - 1)); [assumption|].
    unfold Rdiv. rewrite Rmult_assoc, Rinv_l by lra. lra. }
  assert (IU : forall i, (i < a)%nat -> in_u_domain s (pu i)).
  { intros i Hi. pose proof (FR a i Hi Ha) as F. unfold pu, in_u_domain. rewrite (u_domain_eq s HVS) in *. cbn [fst snd] in *.
    set (x := nth (bs_du s) _ 0) in *. set (y := nth (bs_nu s) _ 0) in *. replace (INR i * (y - x) / INR (a - 1)) with ((y - x) * (INR i / INR (a - 1))) by (unfold Rdiv; ring). nra. }
  assert (IV : forall k, (k < b)%nat -> in_v_domain s (pv k)).
  { intros k Hk. pose proof (FR b k Hk Hb) as F. unfold pv, in_v_domain. rewrite (v_domain_eq s HVS) in *. cbn [fst snd] in *.
    set (x := nth (bs_dv s) _ 0) in *. set (y := nth (bs_nv s) _ 0) in *. replace (INR k * (y - x) / INR (b - 1)) with ((y - x) * (INR k / INR (b - 1))) by (unfold Rdiv; ring). nra. }
  assert (E : surface_evaluate s a b = flat_map (fun i => map (fun k => surface_point s (pu i) (pv k)) (seq 0 b)) (seq 0 a)).
  { unfold surface_evaluate, evaluate_surface, evaluate_surface_c, linspace.
    assert (Rleb (Rabs (fst (v_domain s) - snd (v_domain s))) eps_lin = false) as -> by (apply Rleb_false; rewrite Rabs_minus_sym, Rabs_right by lra; lra).
    assert (Rleb (Rabs (fst (u_domain s) - snd (u_domain s))) eps_lin = false) as -> by (apply Rleb_false; rewrite Rabs_minus_sym, Rabs_right by lra; lra).
    fold pu pv. rewrite !flat_map_concat_map, !map_map.
    destruct (bs_w s) as [w|] eqn:EW.
    - rewrite concat_map, map_map. f_equal. apply map_ext_in. intros i Hi. apply in_seq in Hi. rewrite !map_map. apply map_ext_in. intros k Hk. apply in_seq in Hk.
      rewrite <- (surface_eval_point s (pu i) (pv k) HVS) by (auto; try apply IU; try apply IV; lia). rewrite EW. reflexivity.
    - f_equal. apply map_ext_in. intros i Hi. apply in_seq in Hi. rewrite !map_map. apply map_ext_in. intros k Hk. apply in_seq in Hk.
      rewrite <- (surface_eval_point s (pu i) (pv k) HVS) by (auto; try apply IU; try apply IV; lia). rewrite EW. reflexivity. }
  rewrite E. split; [apply flat_len; intros; rewrite map_length, seq_length; reflexivity|]. intros i k Hi Hk.
  rewrite flat_nth by (auto; intros; rewrite map_length, seq_length; reflexivity). rewrite seq_map_nth by assumption. reflexivity.
Qed.
