(** basis_function_one, coefficient matrix, curve objects, hull and clamped ends. *)
From Coq Require Import Lia Lra Psatz.
From Verif.Model Require Import RBase Nurbs.
From Verif.Spec Require Import NurbsSpec CurveSpec.
From Verif.Proofs Require Import VecP NurbsP NurbsP2.
Open Scope R_scope.

(** ** basis_function_one *)
Lemma one_inner_spec U s m u i q : mono (knots_of U) m -> kn U s < kn U (s + 1) ->
  forall len j saved, (i + j + len + S q <= m)%nat ->
  saved = div0 (u - kn U (i + j)) (kn U (i + j + S q) - kn U (i + j)) * piece (knots_of U) s q (i + j) u ->
  one_inner U i (S q) u j saved (map (fun x => piece (knots_of U) s q (i + x) u) (seq (j + 1) len))
  = map (fun x => piece (knots_of U) s (S q) (i + x) u) (seq j len).
Proof.
  intros Hm Hs len. induction len; intros j saved Hlen Hsaved; [reflexivity|].
  cbn [seq map one_inner].
  replace (i + (j + 1))%nat with (i + j + 1)%nat by lia.
  destruct (Reqb (piece (knots_of U) s q (i + j + 1) u) 0) eqn:E; rb.
  - apply (f_equal2 cons).
    + cbn [piece]. rewrite E, Hsaved. unfold knots_of, kn. replace (i + j + S q + 1)%nat with (i + j + S q + 1)%nat by lia. ring.
    + replace (S (j + 1)) with (j + 1 + 1)%nat by lia. replace (S j) with (j + 1)%nat by lia. apply IHlen; [lia|].
      replace (i + (j + 1))%nat with (i + j + 1)%nat by lia. rewrite E. ring.
  - destruct (piece_den (knots_of U) s m q (i + j + 1) u Hm Hs ltac:(lia)) as [Z|[_ Hlt]]; [contradiction|].
    assert (HN : kn U (i + j + S q + 1) - kn U (i + j + 1) <> 0).
    { unfold kn, knots_of in *. replace (i + j + S q + 1)%nat with (i + j + 1 + q + 1)%nat by lia. lra. }
    apply (f_equal2 cons).
    + cbn [piece]. rewrite Hsaved. rewrite (div0_nz (knots_of U (i + j + S q + 1)%nat - u)) by exact HN.
      unfold knots_of, kn, Rdiv. ring.
    + replace (S (j + 1)) with (j + 1 + 1)%nat by lia. replace (S j) with (j + 1)%nat by lia. apply IHlen; [lia|].
      replace (i + (j + 1))%nat with (i + j + 1)%nat by lia. replace (i + j + 1 + S q)%nat with (i + j + S q + 1)%nat by lia.
      rewrite div0_nz by exact HN. unfold Rdiv. ring.
Qed.
Lemma one_table_spec U s m u i p : mono (knots_of U) m -> kn U s <= u < kn U (s + 1) -> (s + 1 <= m)%nat -> (i + p + 1 <= m)%nat ->
  forall k, (k <= p)%nat ->
  one_table U i u k (one_init U p i u) = map (fun x => piece (knots_of U) s k (i + x) u) (seq 0 (p + 1 - k)).
Proof.
  intros Hm Hs Hsm Hi k. induction k; intros Hk.
  - cbn [one_table]. unfold one_init. rewrite Nat.sub_0_r. apply map_ext_in. intros j Hj. apply in_seq in Hj. cbn [piece].
    destruct (Nat.eq_dec (i + j) s) as [E|E].
    + rewrite E. destruct (Rleb (kn U s) u) eqn:E1; destruct (Rltb u (kn U (s + 1))) eqn:E2; rb; cbn; try reflexivity; lra.
    + destruct (Rleb (kn U (i + j)) u) eqn:E1; destruct (Rltb u (kn U (i + j + 1))) eqn:E2; rb; cbn; try reflexivity. exfalso.
      destruct (lt_eq_lt_dec (i + j) s) as [[H|H]|H]; [|lia|].
      * assert (kn U (i + j + 1) <= kn U s) by (apply (Hm (i + j + 1)%nat s); lia). lra.
      * assert (kn U (s + 1) <= kn U (i + j)) by (apply (Hm (s + 1)%nat (i + j)%nat); lia). lra.
  - cbn [one_table]. rewrite IHk by lia. unfold one_step.
    replace (p + 1 - k)%nat with (S (p - k)) by lia. cbn [seq map tl nth].
    replace (p + 1 - S k)%nat with (p - k)%nat by lia.
    apply (one_inner_spec U s m u i k Hm ltac:(lra) (p - k) 0); [lia|].
    rewrite Nat.add_0_r.
    destruct (Reqb (piece (knots_of U) s k i u) 0) eqn:E; rb; [rewrite E; ring|].
    destruct (piece_den (knots_of U) s m k i u Hm ltac:(unfold knots_of; unfold kn in Hs; lra) ltac:(lia)) as [Z|[_ Hlt]]; [contradiction|].
    rewrite div0_nz. 2:{ unfold kn, knots_of in *. replace (i + S k)%nat with (i + k + 1)%nat by lia. lra. }
    unfold Rdiv; ring.
Qed.

Lemma piece_start U s m u : mono U m -> U s < U (s + 1)%nat -> forall p, (s + 1 <= m)%nat -> (p <= s)%nat ->
  (forall i, (s - p < i <= s)%nat -> U i = u) -> u < U (s + 1)%nat -> piece U s p (s - p) u = 1.
Proof.
  intros Hm Hs p. induction p; intros H1 H2 HU Hu.
  - cbn. rewrite Nat.sub_0_r. destruct (Nat.eq_dec s s); [reflexivity|lia].
  - cbn [piece]. rewrite (piece_supp U s u p (s - S p)) by lia. replace (s - S p + 1)%nat with (s - p)%nat by lia.
    rewrite IHp; [|lia|lia|intros; apply HU; lia|assumption].
    replace (s - S p + S p + 1)%nat with (s + 1)%nat by lia.
    assert (U (s - p)%nat = u) as E by (apply HU; lia). rewrite E, Rmult_0_r, div0_nz by lra. field. lra.
Qed.
Lemma piece_end U s m u : mono U m -> U s < U (s + 1)%nat -> forall p, (s + p <= m)%nat ->
  (forall i, (s < i <= s + p)%nat -> U i = u) -> U s < u -> piece U s p s u = 1.
Proof.
  intros Hm Hs p. induction p; intros H1 HU Hu.
  - cbn. destruct (Nat.eq_dec s s); [reflexivity|lia].
  - cbn [piece]. rewrite (piece_supp U s u p (s + 1)) by lia. rewrite IHp; [|lia|intros; apply HU; lia|assumption].
    assert (U (s + S p)%nat = u) as E by (apply HU; lia). rewrite E, Rmult_0_r, div0_nz by lra. field. lra.
Qed.

Lemma clamped_start p n U u : valid_kv p n U -> clamped_kv p n U -> u = nth p U 0 ->
  find_span_linear p U n u = p /\
  forall i, (i < n)%nat -> coxdeboor (knots_of U) (n - 1) p i u = if Nat.eq_dec i 0 then 1 else 0.
Proof.
  intros HV (C1 & C2 & C3) Hu. pose proof HV as (HL & Hp & Hso & Hlast).
  assert (Hpn : nth p U 0 <= nth n U 0) by (apply Hso; lia).
  assert (Hlt1 : nth (p + 1) U 0 <= nth n U 0) by (apply Hso; lia).
  assert (HD : nth p U 0 <= u < nth n U 0) by lra.
  assert (Hsp : find_span_linear p U n u = p).
  { destruct (find_span_linear_domain p n U u HV HD) as [F G].
    destruct (Nat.eq_dec (find_span_linear p U n u) p); [assumption|].
    assert (nth (p + 1) U 0 <= nth (find_span_linear p U n u) U 0) by (apply Hso; lia). lra. }
  split; [assumption|]. intros i Hi.
  destruct (valid_facts p n U u HV ltac:(unfold kn; lra)) as (Hm & Hs & Hlt & Hin & _ & HC). cbn zeta in *. rewrite Hsp in *.
  assert (H1 : piece (knots_of U) p p 0 u = 1).
  { pose proof (piece_start (knots_of U) p (n + p) u Hm Hlt p ltac:(lia) ltac:(lia)) as L. rewrite Nat.sub_diag in L. apply L.
    - intros k Hk. unfold knots_of. rewrite C1 by lia. auto.
    - unfold knots_of. lra. }
  destruct (Nat.eq_dec i 0) as [->|Hne]; rewrite HC; [assumption|].
  apply (Rsum_others (fun i => piece (knots_of U) p p i u) n 0%nat); auto; try lia.
  - intros k Hk. eapply piece_nonneg; eauto. lia.
  - apply (piece_sum _ _ (n + p)); auto; lia.
Qed.
Lemma clamped_end p n U u : valid_kv p n U -> (forall i, (n <= i <= n + p)%nat -> nth i U 0 = nth n U 0) -> u = nth n U 0 ->
  forall i, (i < n)%nat -> coxdeboor (knots_of U) (n - 1) p i u = if Nat.eq_dec i (n - 1) then 1 else 0.
Proof.
  intros HV C2 Hu i Hi. pose proof HV as (HL & Hp & Hso & Hlast).
  assert (Hsp : find_span_linear p U n u = (n - 1)%nat) by (apply find_span_linear_end; auto; lra).
  assert (Hpn : nth p U 0 <= nth n U 0) by (apply Hso; lia).
  destruct (valid_facts p n U u HV ltac:(unfold kn; lra)) as (Hm & Hs & Hlt & Hin & _ & HC). cbn zeta in *. rewrite Hsp in *.
  assert (H1 : piece (knots_of U) (n - 1) p (n - 1) u = 1).
  { apply (piece_end (knots_of U) (n - 1) (n + p) u Hm Hlt p ltac:(lia)).
    - intros k Hk. unfold knots_of. rewrite C2 by lia. auto.
    - unfold knots_of. lra. }
  destruct (Nat.eq_dec i (n - 1)) as [->|Hne]; rewrite HC; [assumption|].
  apply (Rsum_others (fun i => piece (knots_of U) (n - 1) p i u) n (n - 1)%nat); auto; try lia.
  - intros k Hk. eapply piece_nonneg; eauto. lia.
  - apply (piece_sum _ _ (n + p)); auto; lia.
Qed.

Lemma basis_one_spec p n U u i : valid_kv p n U -> clamped_kv p n U -> nth p U 0 <= u <= nth n U 0 -> (i < n)%nat ->
  basis_function_one p U i u = coxdeboor (knots_of U) (n - 1) p i u.
Proof.
  intros HV HCl Hu Hi. pose proof HV as (HL & Hp & Hso & Hlast). pose proof HCl as (C1 & C2 & C3).
  unfold basis_function_one. rewrite HL.
  replace (n + p + 1 - p - 2)%nat with (n - 1)%nat by lia. replace (n + p + 1 - 1)%nat with (n + p)%nat by lia.
  unfold kn at 1 2. rewrite (C2 (n + p)%nat) by lia. rewrite (C1 0%nat) by lia.
  destruct (Reqb u (nth p U 0)) eqn:E0; rb.
  { (* u is the start of the domain *)
    destruct (clamped_start p n U u HV HCl E0) as [Hsp HN]. rewrite HN by assumption.
    destruct (Nat.eqb_spec i 0) as [Hi0|Hi0]; cbn [andb orb].
    - destruct (Nat.eq_dec i 0); [reflexivity|lia].
    - destruct (Nat.eq_dec i 0); [lia|].
      assert (Reqb u (nth n U 0) = false) as ->. { apply Reqb_false. assert (nth (p + 1) U 0 <= nth n U 0) by (apply Hso; lia). lra. }
      rewrite andb_false_r.
      destruct (Rltb u (kn U i)) eqn:E1; [reflexivity|]. destruct (Rleb (kn U (i + p + 1)) u) eqn:E2; [reflexivity|]. cbn [orb].
      destruct (valid_facts p n U u HV ltac:(unfold kn; lra)) as (Hm & Hs & Hlt & Hin & _ & HC). cbn zeta in *. rewrite Hsp in *.
      rewrite (one_table_spec U p (n + p) u i p Hm) by (try lia; unfold kn in *; lra).
      rewrite seq_map_nth by lia. rewrite Nat.add_0_l, Nat.add_0_r, <- HC, HN by lia.
      destruct (Nat.eq_dec i 0); [lia|reflexivity]. }
  rewrite andb_false_r. cbn [orb].
  destruct (Reqb u (nth n U 0)) eqn:E1; rb.
  { rewrite (clamped_end p n U u HV C2 E1 i Hi).
    destruct (Nat.eqb_spec i (n - 1)) as [Hi0|Hi0]; cbn [andb orb]; destruct (Nat.eq_dec i (n - 1)); try lia; [reflexivity|].
    assert (Rleb (kn U (i + p + 1)) u = true) as ->. { apply Rleb_spec. unfold kn. destruct (le_dec n (i + p + 1)).
      - rewrite C2 by lia. lra. - assert (nth (i + p + 1) U 0 <= nth n U 0) by (apply Hso; lia). lra. }
    rewrite orb_true_r. reflexivity. }
  rewrite andb_false_r.
  assert (HD : nth p U 0 <= u < nth n U 0) by lra.
  destruct (find_span_linear_domain p n U u HV HD) as [F G].
  destruct (valid_facts p n U u HV ltac:(unfold kn; lra)) as (Hm & Hs & Hlt & Hin & _ & HC). cbn zeta in *.
  rewrite HC. set (s := find_span_linear p U n u) in *.
  destruct (Rltb u (kn U i)) eqn:E2; rb; cbn [orb].
  { rewrite piece_supp; [reflexivity|]. intros [? ?].
    assert (nth i U 0 <= nth s U 0) by (apply Hso; lia). unfold kn in E2. lra. }
  destruct (Rleb (kn U (i + p + 1)) u) eqn:E3; rb.
  { rewrite piece_supp; [reflexivity|]. intros [? ?].
    assert (nth (s + 1) U 0 <= nth (i + p + 1) U 0) by (apply Hso; lia). unfold kn in E3. lra. }
  rewrite (one_table_spec U s (n + p) u i p Hm) by (try lia; unfold kn in *; lra).
  rewrite seq_map_nth by lia. rewrite Nat.add_0_l, Nat.add_0_r. reflexivity.
Qed.

(** basis_function_all: entry (j, i), j <= i, is N_{span-i+j, i}(u); no value above the diagonal. *)
Lemma basis_all_spec p n U u i j : valid_kv p n U -> nth p U 0 <= u <= nth n U 0 -> (i <= p)%nat -> (j <= p)%nat ->
  let s := find_span_linear p U n u in
  exists row, nth_error (basis_function_all p U s u) j = Some row /\
  nth_error row i = Some (if (j <=? i)%nat then Some (coxdeboor (knots_of U) (n - 1) i (s - i + j) u) else None).
Proof.
  intros HV Hu Hi Hj. destruct (valid_facts p n U u HV Hu) as (Hm & Hs & Hlt & Hin & _ & HC). cbn zeta in *.
  set (s := find_span_linear p U n u) in *. unfold basis_function_all.
  eexists. split.
  - rewrite nth_error_map. rewrite (nth_error_nth' _ 0%nat) by (rewrite seq_length; lia). cbn. rewrite seq_nth by lia. reflexivity.
  - rewrite nth_error_map. rewrite (nth_error_nth' _ 0%nat) by (rewrite seq_length; lia). cbn [option_map]. rewrite seq_nth by lia. cbn [Nat.add].
    f_equal. rewrite (basis_function_spec U (n + p) s u Hm Hlt i) by lia.
    destruct (Nat.leb_spec j i).
    + rewrite nth_error_map, (nth_error_nth' _ 0%nat) by (rewrite seq_length; lia). cbn [option_map]. rewrite seq_nth by lia. rewrite HC. reflexivity.
    + apply nth_error_None. rewrite map_length, seq_length. lia.
Qed.

(** Row of the interpolation matrix: all n basis functions at the parameter. *)
Lemma coeff_row_spec p n U u : valid_kv p n U -> nth p U 0 <= u <= nth n U 0 ->
  coeff_row p U n u = map (fun j => coxdeboor (knots_of U) (n - 1) p j u) (seq 0 n).
Proof.
  intros HV Hu. destruct (valid_facts p n U u HV Hu) as (Hm & Hs & Hlt & Hin & _ & HC). cbn zeta in *.
  unfold coeff_row. set (s := find_span_linear p U n u) in *. apply map_ext_in. intros j Hj. apply in_seq in Hj.
  rewrite (basis_function_spec U (n + p) s u Hm Hlt p) by lia.
  destruct (Nat.leb_spec (s - p) j); destruct (Nat.leb_spec j s); cbn [andb].
  - rewrite seq_map_nth by lia. rewrite HC. f_equal. lia.
  - rewrite HC, piece_supp; [reflexivity|lia].
  - rewrite HC, piece_supp; [reflexivity|lia].
  - lia.
Qed.

(** ** Curve objects *)
Lemma linspace_same u k : linspace u u k = [u].
Proof.
  unfold linspace. assert (Rleb (Rabs (u - u)) eps_lin = true) as ->; [|reflexivity].
  apply Rleb_spec. unfold Rminus. rewrite Rplus_opp_r, Rabs_R0. unfold eps_lin. assert (0 < / 10 ^ 8) by (apply Rinv_0_lt_compat; lra). lra.
Qed.
Lemma ctrlptsw_length P w : length w = length P -> length (ctrlptsw P w) = length P.
Proof. intros. unfold ctrlptsw. rewrite map_length, combine_length. lia. Qed.
Lemma ctrlptsw_nth P w i : length w = length P -> (i < length P)%nat ->
  nth i (ctrlptsw P w) [] = pscale (nth i w 0) (nth i P []) ++ [nth i w 0].
Proof.
  intros HL Hi. unfold ctrlptsw.
  rewrite (nth_indep _ [] ((fun pw => pscale (snd pw) (fst pw) ++ [snd pw]) ([], 0))) by (rewrite map_length, combine_length; lia).
  rewrite (map_nth (fun pw : list R * R => pscale (snd pw) (fst pw) ++ [snd pw])), combine_nth by auto. reflexivity.
Qed.
Lemma nth_map0 (f : R -> R) l i : f 0 = 0 -> nth i (map f l) 0 = f (nth i l 0).
Proof. intros. rewrite <- H at 1. apply map_nth. Qed.
Lemma pscale_nth c p j : nth j (pscale c p) 0 = c * nth j p 0.
Proof. unfold pscale. apply nth_map0. ring. Qed.
Lemma ctrlptsw_coord P w d i j : length w = length P -> (i < length P)%nat -> length (nth i P []) = d -> (j < d)%nat ->
  nth j (nth i (ctrlptsw P w) []) 0 = nth i w 0 * nth j (nth i P []) 0.
Proof.
  intros HL Hi Hd Hj. rewrite ctrlptsw_nth by auto. rewrite app_nth1 by (unfold pscale; rewrite map_length; lia). apply pscale_nth.
Qed.
Lemma ctrlptsw_weight P w d i : length w = length P -> (i < length P)%nat -> length (nth i P []) = d ->
  nth d (nth i (ctrlptsw P w) []) 0 = nth i w 0.
Proof.
  intros HL Hi Hd. rewrite ctrlptsw_nth by auto. rewrite app_nth2 by (unfold pscale; rewrite map_length; lia).
  unfold pscale. rewrite map_length; rewrite Hd, Nat.sub_diag. reflexivity.
Qed.
Lemma bspline_coord_w p U P w d j u : length w = length P -> (forall Q, In Q P -> length Q = d) -> (j < d)%nat ->
  bspline_coord p U (ctrlptsw P w) j u =
  Rsum (fun i => coxdeboor (knots_of U) (length P - 1) p i u * nth i w 0 * nth j (nth i P []) 0) (length P).
Proof.
  intros HL Hd Hj. unfold bspline_coord. rewrite ctrlptsw_length by auto. apply Rsum_ext. intros i Hi.
  rewrite (ctrlptsw_coord P w d) by (auto; apply Hd, nth_In; auto). ring.
Qed.
Lemma bspline_weight_w p U P w d u : length w = length P -> (forall Q, In Q P -> length Q = d) ->
  bspline_coord p U (ctrlptsw P w) d u = Rsum (fun i => coxdeboor (knots_of U) (length P - 1) p i u * nth i w 0) (length P).
Proof.
  intros HL Hd. unfold bspline_coord. rewrite ctrlptsw_length by auto. apply Rsum_ext. intros i Hi.
  rewrite (ctrlptsw_weight P w d) by (auto; apply Hd, nth_In; auto). ring.
Qed.
Lemma eval_curve_point c u : valid_curve c -> in_domain c u ->
  match bc_weights c with
  | Some w => project (cdim c) (eval_point (bc_degree c) (knotvector c) (ctrlptsw (bc_ctrlpts c) w) (cdim c + 1) u)
  | None => eval_point (bc_degree c) (knotvector c) (bc_ctrlpts c) (cdim c) u
  end = curve_point c u.
Proof.
  intros (HV & Hd & Hw) Hu. unfold curve_point, curve_at, in_domain in *. destruct (bc_weights c) as [w|].
  - destruct Hw as [Hw1 Hw2]. rewrite eval_point_spec by (rewrite ctrlptsw_length; auto).
    unfold project. apply map_ext_in. intros j Hj. apply in_seq in Hj. unfold nurbs_coord.
    rewrite !seq_map_nth by lia. cbn [Nat.add].
    rewrite (bspline_coord_w _ _ _ _ (cdim c)) by (auto; lia). rewrite (bspline_weight_w _ _ _ _ (cdim c)) by auto. reflexivity.
  - apply eval_point_spec; auto.
Qed.
Lemma evaluate_single_spec c u : valid_curve c -> in_domain c u -> evaluate_single c u = curve_point c u.
Proof.
  intros HV Hu. rewrite <- (eval_curve_point c u HV Hu). unfold evaluate_single, evaluate_curve_rational, evaluate_curve_c.
  rewrite linspace_same. destruct (bc_weights c); reflexivity.
Qed.
Lemma evaluate_spec c k : valid_curve c -> (2 <= k)%nat -> eps_lin < snd (domain c) - fst (domain c) ->
  evaluate c k = map (fun x => curve_point c (fst (domain c) + INR x * (snd (domain c) - fst (domain c)) / INR (k - 1))) (seq 0 k).
Proof.
  intros HV Hk Hd. unfold evaluate, evaluate_curve_rational, evaluate_curve_c.
  assert (0 < eps_lin) by (unfold eps_lin; assert (0 < / 10 ^ 8) by (apply Rinv_0_lt_compat; lra); lra).
  unfold linspace. assert (Rleb (Rabs (fst (domain c) - snd (domain c))) eps_lin = false) as ->.
  { apply Rleb_false. rewrite Rabs_left; lra. }
  set (a := fst (domain c)) in *. set (b := snd (domain c)) in *.
  assert (HD : forall x, (x < k)%nat -> in_domain c (a + INR x * (b - a) / INR (k - 1))).
  { intros x Hx. unfold in_domain. destruct HV as (HV & _). destruct HV as (HL & Hp & _).
    change (nth (bc_degree c) (knotvector c) 0) with a.
    assert (b = nth (length (bc_ctrlpts c)) (knotvector c) 0) as <-.
    { unfold b, domain, kn. cbn. f_equal. lia. }
    assert (0 < INR (k - 1)) by (apply lt_0_INR; lia). assert (0 <= INR x) by apply pos_INR.
    assert (INR x <= INR (k - 1)) by (apply le_INR; lia).
    assert (0 <= INR x * (b - a) / INR (k - 1)). { apply Rmult_le_pos; [apply Rmult_le_pos; lra|]. left. apply Rinv_0_lt_compat; lra. }
    assert (INR x * (b - a) / INR (k - 1) <= b - a).
    { apply Rmult_le_reg_r with (INR (k - 1)); [assumption|]. unfold Rdiv. rewrite Rmult_assoc, Rinv_l by lra. nra. }
    lra. }
  destruct (bc_weights c) as [w|] eqn:Ew; rewrite ?map_map; apply map_ext_in; intros x Hx; apply in_seq in Hx;
    pose proof (eval_curve_point c _ HV (HD x ltac:(lia))) as E; rewrite Ew in E; exact E.
Qed.

(** Every point of the curve is a convex combination of the active control points. *)
Lemma curve_hull c u : valid_curve c -> in_domain c u ->
  let s := find_span_linear (bc_degree c) (knotvector c) (length (bc_ctrlpts c)) u in
  exists lam : nat -> R,
    (forall i, 0 <= lam i) /\ (forall i, lam i <> 0 -> (s - bc_degree c <= i <= s)%nat) /\
    Rsum lam (length (bc_ctrlpts c)) = 1 /\
    forall j, (j < cdim c)%nat ->
      nth j (evaluate_single c u) 0 = Rsum (fun i => lam i * nth j (nth i (bc_ctrlpts c) []) 0) (length (bc_ctrlpts c)).
Proof.
  intros HV Hu. rewrite (evaluate_single_spec c u HV Hu). unfold curve_point, curve_at.
  destruct HV as (HK & Hd & Hw). unfold in_domain in Hu. cbn zeta.
  set (n := length (bc_ctrlpts c)) in *. set (p := bc_degree c) in *. set (U := knotvector c) in *.
  set (N := fun i => if lt_dec i n then coxdeboor (knots_of U) (n - 1) p i u else 0).
  assert (HN0 : forall i, 0 <= N i) by (intros; unfold N; destruct (lt_dec i n); [apply coxdeboor_nonneg; auto|lra]).
  assert (HN1 : forall i, N i <> 0 -> (find_span_linear p U n u - p <= i <= find_span_linear p U n u)%nat).
  { intros i Hi. unfold N in Hi. destruct (lt_dec i n); [|lra].
    destruct (le_dec (find_span_linear p U n u - p) i), (le_dec i (find_span_linear p U n u)); try lia;
      exfalso; apply Hi, coxdeboor_outside; auto; lia. }
  assert (HNe : forall i, (i < n)%nat -> N i = coxdeboor (knots_of U) (n - 1) p i u) by (intros; unfold N; destruct (lt_dec i n); [reflexivity|lia]).
  assert (HNs : Rsum N n = 1). { rewrite (Rsum_ext N _ n HNe). apply coxdeboor_sum; auto. }
  destruct (bc_weights c) as [w|].
  - destruct Hw as [Hw1 Hw2].
    set (W := Rsum (fun i => N i * nth i w 0) n).
    assert (HW : 0 < W).
    { unfold W. assert (forall k, (k <= n)%nat -> 0 <= Rsum (fun i => N i * nth i w 0) k /\ (0 < Rsum N k -> 0 < Rsum (fun i => N i * nth i w 0) k)).
      { induction k; intros Hk; rewrite ?Rsum_0, ?Rsum_S; [lra|]. destruct (IHk ltac:(lia)) as [A B].
        assert (0 < nth k w 0) by (apply Hw2, nth_In; unfold n in *; lia). pose proof (HN0 k).
        assert (0 <= N k * nth k w 0) by (apply Rmult_le_pos; lra). split; [lra|]. intros.
        assert (0 <= Rsum N k) by (apply Rsum_nonneg; auto).
        destruct (Req_dec (N k) 0) as [E|E]; [rewrite E in *; assert (HB : 0 < Rsum N k) by lra; specialize (B HB); lra|].
        assert (0 < N k * nth k w 0) by (apply Rmult_lt_0_compat; lra). lra. }
      apply (H n); [lia|lra]. }
    exists (fun i => N i * nth i w 0 / W). repeat split.
    + intros i. destruct (lt_dec i n).
      * assert (0 < nth i w 0) by (apply Hw2, nth_In; unfold n in *; lia). apply Rmult_le_pos; [apply Rmult_le_pos; [auto|lra]|]. left. apply Rinv_0_lt_compat; assumption.
      * unfold N. destruct (lt_dec i n); [lia|]. unfold Rdiv. rewrite !Rmult_0_l. lra.
    + apply (proj1 (HN1 i ltac:(intros E; rewrite E in H; unfold Rdiv in H; rewrite !Rmult_0_l in H; lra))).
    + apply (proj2 (HN1 i ltac:(intros E; rewrite E in H; unfold Rdiv in H; rewrite !Rmult_0_l in H; lra))).
    + unfold Rdiv. rewrite (Rsum_scal_r (/ W) (fun i => N i * nth i w 0)). fold W. apply Rinv_r. lra.
    + intros j Hj. rewrite seq_map_nth by lia. cbn [Nat.add]. unfold nurbs_coord. fold n.
      rewrite (Rsum_ext (fun i => coxdeboor (knots_of U) (n - 1) p i u * nth i w 0) (fun i => N i * nth i w 0)) by (intros; rewrite HNe by auto; reflexivity).
      fold W. unfold Rdiv. rewrite <- Rsum_scal_r. apply Rsum_ext. intros i Hi. rewrite HNe by auto. ring.
  - exists N. repeat split; auto.
    + apply HN1; assumption.
    + apply HN1; assumption.
    + intros j Hj. rewrite seq_map_nth by lia. cbn [Nat.add]. unfold bspline_coord. fold n.
      apply Rsum_ext. intros i Hi. rewrite HNe by auto. reflexivity.
Qed.
Lemma list_eq_nth (l l' : list R) : length l = length l' -> (forall j, (j < length l)%nat -> nth j l 0 = nth j l' 0) -> l = l'.
Proof. intros. eapply nth_ext; eauto. Qed.

Lemma curve_at_single c u k : valid_curve c -> in_domain c u -> (k < length (bc_ctrlpts c))%nat ->
  (forall i, (i < length (bc_ctrlpts c))%nat ->
     coxdeboor (knots_of (knotvector c)) (length (bc_ctrlpts c) - 1) (bc_degree c) i u = if Nat.eq_dec i k then 1 else 0) ->
  evaluate_single c u = nth k (bc_ctrlpts c) [].
Proof.
  intros HV Hu Hk HN. rewrite (evaluate_single_spec c u HV Hu). destruct HV as (HK & Hd & Hw).
  assert (Hkd : length (nth k (bc_ctrlpts c) []) = cdim c) by (apply Hd, nth_In; assumption).
  apply list_eq_nth. { unfold curve_point. rewrite map_length, seq_length. auto. }
  unfold curve_point. rewrite map_length, seq_length. intros j Hj. rewrite seq_map_nth by lia. cbn [Nat.add]. unfold curve_at.
  destruct (bc_weights c) as [w|].
  - destruct Hw as [Hw1 Hw2]. unfold nurbs_coord.
    assert (0 < nth k w 0) by (apply Hw2, nth_In; lia).
    rewrite !(Rsum_one _ _ k Hk).
    + rewrite HN by assumption. destruct (Nat.eq_dec k k); [|lia]. field. lra.
    + intros i Hi Hne. rewrite HN by assumption. destruct (Nat.eq_dec i k); [lia|]. ring.
    + intros i Hi Hne. rewrite HN by assumption. destruct (Nat.eq_dec i k); [lia|]. ring.
  - unfold bspline_coord. rewrite (Rsum_one _ _ k Hk).
    + rewrite HN by assumption. destruct (Nat.eq_dec k k); [|lia]. ring.
    + intros i Hi Hne. rewrite HN by assumption. destruct (Nat.eq_dec i k); [lia|]. ring.
Qed.
Lemma curve_clamped c : valid_curve c -> clamped_kv (bc_degree c) (length (bc_ctrlpts c)) (knotvector c) ->
  evaluate_single c (fst (domain c)) = nth 0 (bc_ctrlpts c) [] /\
  evaluate_single c (snd (domain c)) = nth (length (bc_ctrlpts c) - 1) (bc_ctrlpts c) [].
Proof.
  intros HV HC. pose proof HV as (HK & _). pose proof HK as (HL & Hp & Hso & Hlast).
  assert (E2 : snd (domain c) = nth (length (bc_ctrlpts c)) (knotvector c) 0) by (cbn; unfold kn; f_equal; lia).
  assert (Hle : nth (bc_degree c) (knotvector c) 0 <= nth (length (bc_ctrlpts c)) (knotvector c) 0) by (apply Hso; lia).
  split.
  - apply curve_at_single; auto; [unfold in_domain; cbn; unfold kn; lra|lia|].
    intros i Hi. apply (clamped_start (bc_degree c) (length (bc_ctrlpts c))); auto.
  - apply curve_at_single; auto; [unfold in_domain; rewrite E2; lra|lia|].
    intros i Hi. apply clamped_end; auto. apply HC.
Qed.
