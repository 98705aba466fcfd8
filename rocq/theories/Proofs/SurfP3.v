(** B-spline surfaces: insert_knot_surface, splitting, iso-parametric curves. *)
From Coq Require Import Lia Lra Psatz.
From Verif.Model Require Import RBase Nurbs NurbsSurf.
From Verif.Spec Require Import NurbsSpec CurveSpec SurfSpec.
From Verif.Proofs Require Import VecP NurbsP NurbsP2 NurbsP3 BoehmP InsertP KnotsP InsertCurveP SplitP SplitP2 SurfP SurfP2.
Open Scope R_scope.

Lemma same_surface_refl s : same_surface s s.
Proof. split; [reflexivity|]. split; [reflexivity|]. auto. Qed.
Lemma same_surface_trans a b c : same_surface a b -> same_surface b c -> same_surface a c.
Proof.
  intros (A1 & A2 & A3) (B1 & B2 & B3). split; [congruence|]. split; [congruence|]. intros u v Hu Hv.
  destruct (A3 u v Hu Hv) as (X1 & X2 & X3). destruct (B3 u v X1 X2) as (Y1 & Y2 & Y3). split; [assumption|]. split; [assumption|congruence].
Qed.
Lemma insert_u_zero s u b : insert_u s u 0 b = Ok s. Proof. reflexivity. Qed.
Lemma insert_u_too_many s u num : separated_from eps15 u (knots_vector_u s) -> (bs_du s < occurrences u (knots_vector_u s) + num)%nat -> (1 <= num)%nat ->
  insert_u s u num true = Err ValueError.
Proof.
  intros HS Hn H1. unfold insert_u. destruct num; [lia|]. rewrite (find_multiplicity_occ u _ HS). cbn [andb].
  rewrite (proj2 (Z.ltb_lt _ _)) by lia. reflexivity.
Qed.
Lemma insert_v_too_many s u num : separated_from eps15 u (knots_vector_v s) -> (bs_dv s < occurrences u (knots_vector_v s) + num)%nat -> (1 <= num)%nat ->
  insert_v s u num true = Err ValueError.
Proof.
  intros HS Hn H1. unfold insert_v. destruct num; [lia|]. rewrite (find_multiplicity_occ u _ HS). cbn [andb].
  rewrite (proj2 (Z.ltb_lt _ _)) by lia. reflexivity.
Qed.
Lemma insert_surface_u s u num b : valid_surface s -> normalized_surface s -> full_u s u num ->
  exists s', insert_knot_surface s (Some u) None num 0 b = Ok s' /\ valid_surface s' /\ normalized_surface s' /\ same_surface s s' /\
    bs_nu s' = (bs_nu s + num)%nat /\ bs_nv s' = bs_nv s.
Proof.
  intros HV HN (H1 & H2 & H3 & H4). destruct (insU_spec s u num HV H1 H2 H3 H4 b HN) as (s' & A & B & C & D & E & F & G & H & _).
  exists s'. unfold insert_knot_surface. rewrite A. cbn [bind]. tauto.
Qed.
Lemma insert_surface_v s v num b : valid_surface s -> normalized_surface s -> full_v s v num ->
  exists s', insert_knot_surface s None (Some v) 0 num b = Ok s' /\ valid_surface s' /\ normalized_surface s' /\ same_surface s s' /\
    bs_nu s' = bs_nu s /\ bs_nv s' = (bs_nv s + num)%nat.
Proof.
  intros HV HN (H1 & H2 & H3 & H4). destruct (insV_spec s v num HV H1 H2 H3 H4 b HN) as (s' & A & B & C & D & E & F & G & H & _).
  exists s'. unfold insert_knot_surface. cbn [bind]. tauto.
Qed.
Lemma insert_surface_uv s u v nu nv b : valid_surface s -> normalized_surface s -> full_u s u nu -> full_v s v nv ->
  exists s', insert_knot_surface s (Some u) (Some v) nu nv b = Ok s' /\ valid_surface s' /\ normalized_surface s' /\ same_surface s s' /\
    bs_nu s' = (bs_nu s + nu)%nat /\ bs_nv s' = (bs_nv s + nv)%nat.
Proof.
  intros HV HN (H1 & H2 & H3 & H4) (K1 & K2 & K3 & K4). destruct (insU_spec s u nu HV H1 H2 H3 H4 b HN) as (t & A & B & C & D & E & F & G & H & _).
  assert (ED : bs_dv t = bs_dv s) by apply D.
  destruct (insV_spec t v nv B) with (b := b) as (s' & A' & B' & C' & D' & E' & F' & G' & H' & _); rewrite ?F, ?H, ?ED; auto.
  exists s'. unfold insert_knot_surface. rewrite A. cbn [bind]. split; [assumption|]. split; [assumption|]. split; [assumption|].
  split; [eapply same_surface_trans; eassumption|]. split; congruence.
Qed.

Lemma Reqb_ne x y : x <> y -> Reqb x y = false.
Proof. intros H. destruct (Reqb x y) eqn:E; [|reflexivity]. apply Reqb_spec in E. contradiction. Qed.
(** ** Splitting *)
Lemma firstn_map_seq {A} (f : nat -> A) m n a : (m <= n)%nat -> firstn m (map f (seq a n)) = map f (seq a m).
Proof.
  intros H. rewrite firstn_map. f_equal. revert a m H. induction n; intros a m H; [assert (m = 0)%nat by lia; subst; reflexivity|].
  destruct m; [reflexivity|]. cbn. f_equal. apply IHn. lia.
Qed.
Lemma skipn_map_seq {A} (f : nat -> A) o n : (o <= n)%nat -> skipn o (map f (seq 0 n)) = map (fun i => f (o + i)%nat) (seq 0 (n - o)).
Proof.
  intros H. rewrite skipn_map'. replace n with (o + (n - o))%nat at 1 by lia. rewrite seq_app, skipn_app, seq_length, Nat.sub_diag. cbn [skipn].
  rewrite skipn_all2 by (rewrite seq_length; lia). cbn [app Nat.add]. rewrite <- (seq_add_map o (n - o)), map_map. reflexivity.
Qed.
Lemma in_firstn {A} m (l : list A) x : In x (firstn m l) -> In x l.
Proof. intros H. rewrite <- (firstn_skipn m l). apply in_or_app; auto. Qed.
Lemma in_skipn {A} m (l : list A) x : In x (skipn m l) -> In x l.
Proof. intros H. rewrite <- (firstn_skipn m l). apply in_or_app; auto. Qed.

(** The u direction cut at a knot of full multiplicity. *)
Lemma cut_u t u k : valid_surface t -> normalized_surface t -> separated eps15 (u :: knots_vector_u t) -> (1 <= bs_du t)%nat ->
  nth (bs_du t) (knots_vector_u t) 0 < u -> (bs_du t <= k < bs_nu t)%nat ->
  nth k (knots_vector_u t) 0 = u /\ u < nth (k + 1) (knots_vector_u t) 0 ->
  (forall i, (k - bs_du t < i <= k)%nat -> nth i (knots_vector_u t) 0 = u) -> nth (k - bs_du t) (knots_vector_u t) 0 < u ->
  exists s1 s2, construct_split_u t (firstn (k + 1) (knots_vector_u t) ++ [u]) (repeat u (bs_du t + 1) ++ skipn (k + 1) (knots_vector_u t)) (k - bs_du t + 1) = Ok (s1, s2) /\
    valid_surface s1 /\ valid_surface s2 /\ normalized_surface s1 /\ normalized_surface s2 /\ split_u_ok t s1 s2 u.
Proof.
  intros HVS [(N1 & N2 & N3 & N4) (N5 & N6 & N7 & N8)] HS Hp1 Hup Hk Hku Hrun Hbef. pose proof HVS as (HU & HV & _).
  set (U := knots_vector_u t) in *. set (p := bs_du t) in *. set (n := bs_nu t) in *. set (nv := bs_nv t) in *.
  pose proof HU as (HL & Hp & Hso & Hl). destruct (cpts_good t HVS) as [[GD GP] GL]. fold n nv in GL.
  pose proof (kv1_valid p U n k u Hp1 HU Hk Hku Hrun Hbef Hup) as V1.
  pose proof (kv2_valid p U n k u Hp1 HU Hk Hrun) as V2.
  set (kv1 := firstn (k + 1) U ++ [u]) in *. set (kv2 := repeat u (p + 1) ++ skipn (k + 1) U) in *.
  assert (EN1 : hd 0 kv1 = 0 /\ last kv1 0 = u).
  { pose proof (kv1_ends p U n k u Hp1 HU Hk) as X. fold kv1 in X. rewrite N3 in X. exact X. }
  assert (EN2 : hd 0 kv2 = u /\ last kv2 0 = 1).
  { pose proof (kv2_ends p U n k u Hp1 HU Hk) as X. fold kv2 in X. rewrite N4 in X. exact X. }
  destruct EN1 as [EN1a EN1b], EN2 as [EN2a EN2b].
  assert (U0 : 0 < u). { assert (nth 0 U 0 <= nth p U 0) by (apply Hso; lia). lra. }
  assert (U1 : u < 1). { assert (nth (k + 1) U 0 <= last U 0) by (apply nondec_last; [apply sorted_nondec, Hso|apply nth_In; lia]). lra. }
  assert (S1 : separated eps15 kv1) by (eapply separated_incl; [intros x Hx; apply (kv1_in U k u x Hx)|exact HS]).
  assert (S2 : separated eps15 kv2) by (eapply separated_incl; [intros x Hx; apply (kv2_in p U k u x Hx)|exact HS]).
  set (n1 := (k - p + 1)%nat) in *. set (o := (k - p)%nat) in *.
  destruct (std_km kv1 S1) as (ks1 & A1 & A2 & A3 & A4); [apply V1|lra|]. destruct (std_km kv2 S2) as (ks2 & B1 & B2 & B3 & B4); [apply V2|lra|].
  rewrite EN1a, EN1b in A2. rewrite EN2a, EN2b in B2.
  unfold construct_split_u. fold p U n nv. replace (n1 - 1)%nat with o by (unfold n1, o; lia).
  destruct (get_knots_and_multiplicities kv1) as [k1 m1]. destruct (get_knots_and_multiplicities kv2) as [k2 m2]. cbn [fst snd] in *.
  pose proof (std_id _ N5 N6) as SV. change (ctrlpts2d t) with (reshape (cpts t) n nv).
  set (C := cpts t) in *. set (C1 := ctrlpts2d_to_ctrlpts (firstn n1 (reshape C n nv))). set (C2 := ctrlpts2d_to_ctrlpts (skipn o (reshape C n nv))).
  assert (V1' : valid_kv p n1 (map (aff 0 (u - 0)) kv1)) by (apply valid_aff; [lra|exact V1]).
  assert (V2' : valid_kv p (n - o) (map (aff u (1 - u)) kv2)) by (apply valid_aff; [lra|exact V2]).
  assert (R1 : forall r, In r (firstn n1 (reshape C n nv)) -> length r = nv) by (intros r Hr; eapply reshape_rows; eapply in_firstn; eassumption).
  assert (R2 : forall r, In r (skipn o (reshape C n nv)) -> length r = nv) by (intros r Hr; eapply reshape_rows; eapply in_skipn; eassumption).
  assert (T1 : length (firstn n1 (reshape C n nv)) = n1) by (rewrite firstn_length, reshape_len; unfold n1; lia).
  assert (T2 : length (skipn o (reshape C n nv)) = (n - o)%nat) by (rewrite skipn_length, reshape_len; reflexivity).
  assert (L1 : length C1 = (n1 * nv)%nat) by (unfold C1; rewrite (flatten_len _ nv R1), T1; reflexivity).
  assert (L2 : length C2 = ((n - o) * nv)%nat) by (unfold C2; rewrite (flatten_len _ nv R2), T2; reflexivity).
  assert (X1 : forall i j, (i < n1)%nat -> (j < nv)%nat -> nth (j + nv * i) C1 [] = nth (j + nv * i) C []).
  { intros i j Hi Hj. unfold C1. rewrite flatten_nth by (auto; lia). rewrite firstn_nth by assumption. apply reshape_nth; [unfold n1 in Hi; lia|assumption]. }
  assert (X2 : forall i j, (i < n - o)%nat -> (j < nv)%nat -> nth (j + nv * i) C2 [] = nth (j + nv * (o + i)) C []).
  { intros i j Hi Hj. unfold C2. rewrite flatten_nth by (auto; lia). rewrite skipn_nth. apply reshape_nth; [lia|assumption]. }
  assert (G1 : good_net t C1).
  { assert (I : forall q, In q C1 -> In q C).
    { intros q Hq. apply (In_nth _ _ []) in Hq as (x & Hx & <-). rewrite L1 in Hx. destruct (idx_split _ _ _ Hx) as (i & j & Hi & Hj & ->).
      rewrite X1 by assumption. apply nth_In. rewrite GL. apply idx_lt; [unfold n1 in Hi; lia|assumption]. }
    split; [intros q Hq; apply GD; auto|intros HW q Hq; apply GP; auto]. }
  assert (G2 : good_net t C2).
  { assert (I : forall q, In q C2 -> In q C).
    { intros q Hq. apply (In_nth _ _ []) in Hq as (x & Hx & <-). rewrite L2 in Hx. destruct (idx_split _ _ _ Hx) as (i & j & Hi & Hj & ->).
      rewrite X2 by assumption. apply nth_In. rewrite GL. apply idx_lt; [lia|assumption]. }
    split; [intros q Hq; apply GD; auto|intros HW q Hq; apply GP; auto]. }
  destruct (from_net_ok t C1 n1 nv m1 (bs_vm t) k1 (bs_vk t) ks1 (bs_vk t) A1 SV) as (s1 & D1 & D2 & D3 & D4 & D5 & D6 & D7 & D8 & D9 & D10 & D11 & D12); auto.
  { rewrite A2. exact V1'. }
  destruct (from_net_ok t C2 (n - o) nv m2 (bs_vm t) k2 (bs_vk t) ks2 (bs_vk t) B1 SV) as (s2 & F1 & F2 & F3 & F4 & F5 & F6 & F7 & F8 & F9 & F10 & F11 & F12); auto.
  { rewrite B2. exact V2'. }
  rewrite D1. cbn [bind]. rewrite F1. cbn [bind]. exists s1, s2. split; [reflexivity|]. split; [assumption|]. split; [assumption|].
  assert (KU1 : knots_vector_u s1 = map (aff 0 (u - 0)) kv1) by (unfold knots_vector_u; rewrite D7, D9; exact A2).
  assert (KU2 : knots_vector_u s2 = map (aff u (1 - u)) kv2) by (unfold knots_vector_u; rewrite F7, F9; exact B2).
  assert (KV1 : knots_vector_v s1 = knots_vector_v t) by (unfold knots_vector_v; rewrite D8, D10; reflexivity).
  assert (KV2 : knots_vector_v s2 = knots_vector_v t) by (unfold knots_vector_v; rewrite F8, F10; reflexivity).
  assert (LK1 : length kv1 = (n1 + p + 1)%nat) by apply V1. assert (LK2 : length kv2 = (n - o + p + 1)%nat) by apply V2.
  split; [|split; [|split]].
  - split; unfold unit_knots; [|rewrite KV1, D8; auto]. rewrite D7, KU1. rewrite nth_map_lt by lia. rewrite nth_hd, EN1a. split; [assumption|]. split; [assumption|].
    split; [unfold aff; field; lra|].
    destruct (@exists_last _ kv1) as (l & x & E); [intros E; rewrite E in LK1; cbn in LK1; lia|]. rewrite E in EN1b |- *.
    rewrite map_app, last_last in *. cbn [map]. rewrite last_last. subst x. unfold aff. field. lra.
  - split; unfold unit_knots; [|rewrite KV2, F8; auto]. rewrite F7, KU2. rewrite nth_map_lt by lia. rewrite nth_hd, EN2a. split; [assumption|]. split; [assumption|].
    split; [unfold aff; field; lra|].
    destruct (@exists_last _ kv2) as (l & x & E); [intros E; rewrite E in LK2; cbn in LK2; lia|]. rewrite E in EN2b |- *.
    rewrite map_app, last_last in *. cbn [map]. rewrite last_last. subst x. unfold aff. field. lra.
  - intros x y Hx Hy Hxu. unfold in_u_domain in Hx. fold p U n in Hx.
    assert (EX : x / u = aff 0 (u - 0) x) by (unfold aff; field; lra). rewrite EX. split; [|split].
    + unfold in_u_domain. rewrite KU1, D3, D5. fold p. rewrite !nth_map_lt by lia.
      pose proof (kv1_nth p U n k u Hp1 HU Hk) as X. fold kv1 in X. pose proof (k_2p p U n k u Hp1 Hk Hrun Hup).
      rewrite !X by (unfold n1; lia). rewrite (Hrun n1) by (unfold n1; lia). split; apply aff_le; lra.
    + unfold in_v_domain in *. rewrite KV1, D4, D6. exact Hy.
    + apply same_pt; auto. intros j Hj. unfold hsurf. rewrite KU1, KV1, D3, D4, D5, D6, D11. fold p n nv C U. rewrite !hs_cols. apply Rsum_ext. intros m Hm. f_equal.
      assert (EC : col C1 n1 nv m = firstn n1 (col C n nv m)).
      { unfold col. rewrite firstn_map_seq by (unfold n1; lia). apply map_ext_in. intros i Hi. apply in_seq in Hi. apply X1; [lia|assumption]. }
      rewrite EC. apply (half1 p U n k u); auto; try lra. apply col_len.
  - intros x y Hx Hy Hxu. unfold in_u_domain in Hx. fold p U n in Hx.
    change ((x - u) / (1 - u)) with (aff u (1 - u) x). split; [|split].
    + unfold in_u_domain. rewrite KU2, F3, F5. fold p. rewrite !nth_map_lt by lia.
      pose proof (kv2_nth p U n k u Hp1 Hk Hrun) as X. fold kv2 in X. fold o in X. rewrite !X by (unfold o; lia).
      replace (n - o + o)%nat with n by (unfold o; lia). rewrite (Hrun (p + o)%nat) by (unfold o; lia). split; apply aff_le; lra.
    + unfold in_v_domain in *. rewrite KV2, F4, F6. exact Hy.
    + apply same_pt; auto. intros j Hj. unfold hsurf. rewrite KU2, KV2, F3, F4, F5, F6, F11. fold p n nv C U. rewrite !hs_cols. apply Rsum_ext. intros m Hm. f_equal.
      assert (EC : col C2 (n - o) nv m = skipn o (col C n nv m)).
      { unfold col. rewrite skipn_map_seq by (unfold o; lia). apply map_ext_in. intros i Hi. apply in_seq in Hi. apply X2; [lia|assumption]. }
      rewrite EC. apply (half2 p U n k u); auto; try lra. apply col_len.
Qed.
Lemma cut_v t u k : valid_surface t -> normalized_surface t -> separated eps15 (u :: knots_vector_v t) -> (1 <= bs_dv t)%nat ->
  nth (bs_dv t) (knots_vector_v t) 0 < u -> (bs_dv t <= k < bs_nv t)%nat ->
  nth k (knots_vector_v t) 0 = u /\ u < nth (k + 1) (knots_vector_v t) 0 ->
  (forall i, (k - bs_dv t < i <= k)%nat -> nth i (knots_vector_v t) 0 = u) -> nth (k - bs_dv t) (knots_vector_v t) 0 < u ->
  exists s1 s2, construct_split_v t (firstn (k + 1) (knots_vector_v t) ++ [u]) (repeat u (bs_dv t + 1) ++ skipn (k + 1) (knots_vector_v t)) (k - bs_dv t + 1) = Ok (s1, s2) /\
    valid_surface s1 /\ valid_surface s2 /\ normalized_surface s1 /\ normalized_surface s2 /\ split_v_ok t s1 s2 u.
Proof.
  intros HVS [(N5 & N6 & N7 & N8) (N1 & N2 & N3 & N4)] HS Hp1 Hup Hk Hku Hrun Hbef. pose proof HVS as (HU & HV & _).
  set (V := knots_vector_v t) in *. set (p := bs_dv t) in *. set (n := bs_nv t) in *. set (nu := bs_nu t) in *.
  pose proof HV as (HL & Hp & Hso & Hl). destruct (cpts_good t HVS) as [[GD GP] GL]. fold n nu in GL.
  pose proof (kv1_valid p V n k u Hp1 HV Hk Hku Hrun Hbef Hup) as V1.
  pose proof (kv2_valid p V n k u Hp1 HV Hk Hrun) as V2.
  set (kv1 := firstn (k + 1) V ++ [u]) in *. set (kv2 := repeat u (p + 1) ++ skipn (k + 1) V) in *.
  assert (EN1 : hd 0 kv1 = 0 /\ last kv1 0 = u).
  { pose proof (kv1_ends p V n k u Hp1 HV Hk) as X. fold kv1 in X. rewrite N3 in X. exact X. }
  assert (EN2 : hd 0 kv2 = u /\ last kv2 0 = 1).
  { pose proof (kv2_ends p V n k u Hp1 HV Hk) as X. fold kv2 in X. rewrite N4 in X. exact X. }
  destruct EN1 as [EN1a EN1b], EN2 as [EN2a EN2b].
  assert (U0 : 0 < u). { assert (nth 0 V 0 <= nth p V 0) by (apply Hso; lia). lra. }
  assert (U1 : u < 1). { assert (nth (k + 1) V 0 <= last V 0) by (apply nondec_last; [apply sorted_nondec, Hso|apply nth_In; lia]). lra. }
  assert (S1 : separated eps15 kv1) by (eapply separated_incl; [intros x Hx; apply (kv1_in V k u x Hx)|exact HS]).
  assert (S2 : separated eps15 kv2) by (eapply separated_incl; [intros x Hx; apply (kv2_in p V k u x Hx)|exact HS]).
  set (n1 := (k - p + 1)%nat) in *. set (o := (k - p)%nat) in *.
  destruct (std_km kv1 S1) as (ks1 & A1 & A2 & A3 & A4); [apply V1|lra|]. destruct (std_km kv2 S2) as (ks2 & B1 & B2 & B3 & B4); [apply V2|lra|].
  rewrite EN1a, EN1b in A2. rewrite EN2a, EN2b in B2.
  unfold construct_split_v. fold p V n nu. replace (n1 - 1)%nat with o by (unfold n1, o; lia).
  destruct (get_knots_and_multiplicities kv1) as [k1 m1]. destruct (get_knots_and_multiplicities kv2) as [k2 m2]. cbn [fst snd] in *.
  pose proof (std_id _ N5 N6) as SU. change (ctrlpts2d t) with (reshape (cpts t) nu n).
  set (C := cpts t) in *. set (C1 := flat_map (firstn n1) (reshape C nu n)). set (C2 := flat_map (skipn o) (reshape C nu n)).
  assert (V1' : valid_kv p n1 (map (aff 0 (u - 0)) kv1)) by (apply valid_aff; [lra|exact V1]).
  assert (V2' : valid_kv p (n - o) (map (aff u (1 - u)) kv2)) by (apply valid_aff; [lra|exact V2]).
  assert (E1 : C1 = flat_map (fun i => firstn n1 (row C n i)) (seq 0 nu)).
  { unfold C1, reshape. rewrite !flat_map_concat_map, map_map. reflexivity. }
  assert (E2 : C2 = flat_map (fun i => skipn o (row C n i)) (seq 0 nu)).
  { unfold C2, reshape. rewrite !flat_map_concat_map, map_map. reflexivity. }
  assert (R1 : forall i, length (firstn n1 (row C n i)) = n1) by (intros i; rewrite firstn_length, row_len; unfold n1; lia).
  assert (R2 : forall i, length (skipn o (row C n i)) = (n - o)%nat) by (intros i; rewrite skipn_length, row_len; reflexivity).
  assert (L1 : length C1 = (nu * n1)%nat) by (rewrite E1; apply flat_len; auto).
  assert (L2 : length C2 = (nu * (n - o))%nat) by (rewrite E2; apply flat_len; auto).
  assert (X1 : forall i j, (i < nu)%nat -> (j < n1)%nat -> nth (j + n1 * i) C1 [] = nth (j + n * i) C []).
  { intros i j Hi Hj. rewrite E1. rewrite flat_nth by auto. rewrite firstn_nth by assumption. unfold row. rewrite seq_map_nth by (unfold n1 in Hj; lia). reflexivity. }
  assert (X2 : forall i j, (i < nu)%nat -> (j < n - o)%nat -> nth (j + (n - o) * i) C2 [] = nth (o + j + n * i) C []).
  { intros i j Hi Hj. rewrite E2. rewrite flat_nth by auto. rewrite skipn_nth. unfold row. rewrite seq_map_nth by lia. reflexivity. }
  assert (G1 : good_net t C1).
  { assert (I : forall q, In q C1 -> In q C).
    { intros q Hq. apply (In_nth _ _ []) in Hq as (x & Hx & <-). rewrite L1 in Hx. destruct (idx_split _ _ _ Hx) as (i & j & Hi & Hj & ->).
      rewrite X1 by assumption. apply nth_In. rewrite GL. apply idx_lt; [assumption|unfold n1 in Hj; lia]. }
    split; [intros q Hq; apply GD; auto|intros HW q Hq; apply GP; auto]. }
  assert (G2 : good_net t C2).
  { assert (I : forall q, In q C2 -> In q C).
    { intros q Hq. apply (In_nth _ _ []) in Hq as (x & Hx & <-). rewrite L2 in Hx. destruct (idx_split _ _ _ Hx) as (i & j & Hi & Hj & ->).
      rewrite X2 by assumption. apply nth_In. rewrite GL. apply idx_lt; [assumption|lia]. }
    split; [intros q Hq; apply GD; auto|intros HW q Hq; apply GP; auto]. }
  destruct (from_net_ok t C1 nu n1 (bs_um t) m1 (bs_uk t) k1 (bs_uk t) ks1 SU A1) as (s1 & D1 & D2 & D3 & D4 & D5 & D6 & D7 & D8 & D9 & D10 & D11 & D12); auto.
  { rewrite A2. exact V1'. }
  destruct (from_net_ok t C2 nu (n - o) (bs_um t) m2 (bs_uk t) k2 (bs_uk t) ks2 SU B1) as (s2 & F1 & F2 & F3 & F4 & F5 & F6 & F7 & F8 & F9 & F10 & F11 & F12); auto.
  { rewrite B2. exact V2'. }
  rewrite D1. cbn [bind]. rewrite F1. cbn [bind]. exists s1, s2. split; [reflexivity|]. split; [assumption|]. split; [assumption|].
  assert (KV1 : knots_vector_v s1 = map (aff 0 (u - 0)) kv1) by (unfold knots_vector_v; rewrite D8, D10; exact A2).
  assert (KV2 : knots_vector_v s2 = map (aff u (1 - u)) kv2) by (unfold knots_vector_v; rewrite F8, F10; exact B2).
  assert (KU1 : knots_vector_u s1 = knots_vector_u t) by (unfold knots_vector_u; rewrite D7, D9; reflexivity).
  assert (KU2 : knots_vector_u s2 = knots_vector_u t) by (unfold knots_vector_u; rewrite F7, F9; reflexivity).
  assert (LK1 : length kv1 = (n1 + p + 1)%nat) by apply V1. assert (LK2 : length kv2 = (n - o + p + 1)%nat) by apply V2.
  split; [|split; [|split]].
  - split; unfold unit_knots; [rewrite KU1, D7; auto|]. rewrite D8, KV1. rewrite nth_map_lt by lia. rewrite nth_hd, EN1a. split; [assumption|]. split; [assumption|].
    split; [unfold aff; field; lra|].
    destruct (@exists_last _ kv1) as (l & x & E); [intros E; rewrite E in LK1; cbn in LK1; lia|]. rewrite E in EN1b |- *.
    rewrite map_app, last_last in *. cbn [map]. rewrite last_last. subst x. unfold aff. field. lra.
  - split; unfold unit_knots; [rewrite KU2, F7; auto|]. rewrite F8, KV2. rewrite nth_map_lt by lia. rewrite nth_hd, EN2a. split; [assumption|]. split; [assumption|].
    split; [unfold aff; field; lra|].
    destruct (@exists_last _ kv2) as (l & x & E); [intros E; rewrite E in LK2; cbn in LK2; lia|]. rewrite E in EN2b |- *.
    rewrite map_app, last_last in *. cbn [map]. rewrite last_last. subst x. unfold aff. field. lra.
  - intros y x Hy Hx Hxu. unfold in_v_domain in Hx. fold p V n in Hx.
    assert (EX : x / u = aff 0 (u - 0) x) by (unfold aff; field; lra). rewrite EX. split; [|split].
    + unfold in_u_domain in *. rewrite KU1, D3, D5. exact Hy.
    + unfold in_v_domain. rewrite KV1, D4, D6. fold p. rewrite !nth_map_lt by lia.
      pose proof (kv1_nth p V n k u Hp1 HV Hk) as X. fold kv1 in X. pose proof (k_2p p V n k u Hp1 Hk Hrun Hup).
      rewrite !X by (unfold n1; lia). rewrite (Hrun n1) by (unfold n1; lia). split; apply aff_le; lra.
    + apply same_pt; auto. intros j Hj. unfold hsurf. rewrite KU1, KV1, D3, D4, D5, D6, D11. fold p n nu C V. rewrite !hs_rows. apply Rsum_ext. intros m Hm. f_equal.
      assert (EC : row C1 n1 m = firstn n1 (row C n m)).
      { unfold row. rewrite firstn_map_seq by (unfold n1; lia). apply map_ext_in. intros i Hi. apply in_seq in Hi. apply X1; [assumption|lia]. }
      rewrite EC. apply (half1 p V n k u); auto; try lra. apply row_len.
  - intros y x Hy Hx Hxu. unfold in_v_domain in Hx. fold p V n in Hx.
    change ((x - u) / (1 - u)) with (aff u (1 - u) x). split; [|split].
    + unfold in_u_domain in *. rewrite KU2, F3, F5. exact Hy.
    + unfold in_v_domain. rewrite KV2, F4, F6. fold p. rewrite !nth_map_lt by lia.
      pose proof (kv2_nth p V n k u Hp1 Hk Hrun) as X. fold kv2 in X. fold o in X. rewrite !X by (unfold o; lia).
      replace (n - o + o)%nat with n by (unfold o; lia). rewrite (Hrun (p + o)%nat) by (unfold o; lia). split; apply aff_le; lra.
    + apply same_pt; auto. intros j Hj. unfold hsurf. rewrite KU2, KV2, F3, F4, F5, F6, F11. fold p n nu C V. rewrite !hs_rows. apply Rsum_ext. intros m Hm. f_equal.
      assert (EC : row C2 (n - o) m = skipn o (row C n m)).
      { unfold row. rewrite skipn_map_seq by (unfold o; lia). apply map_ext_in. intros i Hi. apply in_seq in Hi. apply X2; [assumption|lia]. }
      rewrite EC. apply (half2 p V n k u); auto; try lra. apply row_len.
Qed.

(** split_surface_u, split_surface_v *)
Lemma kv_full p n U u r : valid_kv p n U -> separated eps15 (u :: U) -> nth p U 0 < u < nth n U 0 -> (occurrences u U + r = p)%nat ->
  let k := find_span_linear p U n u in let W := knot_insertion_kv U u k r in
  (p <= k + r < n + r)%nat /\ nth p W 0 < u < nth (n + r) W 0 /\ (nth (k + r) W 0 = u \/ p = 0%nat) /\ u < nth (k + r + 1) W 0 /\
  (forall i, (k + r - p < i <= k + r)%nat -> nth i W 0 = u) /\ ((1 <= p)%nat -> nth (k + r - p) W 0 < u) /\ separated eps15 (u :: W).
Proof.
  intros HV HS Hu Hr. cbn zeta. destruct (span_data_kv p n U u HV HS ltac:(lra)) as (Hmul & Hk & Hku & Hs1 & Hrun & Hbef). cbn zeta in *.
  set (k := find_span_linear p U n u) in *. pose proof HV as (HL & Hp & Hso & Hl). set (W := knot_insertion_kv U u k r).
  assert (KT : forall i, nth i W 0 = insR (knots_of U) k r u i) by (intros i; apply (kv_knots_of U u k r i); lia).
  assert (Hrun' : forall i, (k + r - p < i <= k + r)%nat -> nth i W 0 = u).
  { intros i Hi. rewrite KT. destruct (le_dec i k); [rewrite insR_le by lia; apply Hrun; lia|apply insR_mid; lia]. }
  destruct (kv_dom p n U u k r HV Hk) as [D1 D2]. fold W in D1, D2.
  split; [lia|]. split; [rewrite D1, D2; lra|]. split; [destruct (Nat.eq_dec p 0); [right; assumption|left; apply Hrun'; lia]|].
  split; [rewrite KT, insR_gt by lia; replace (k + r + 1 - r)%nat with (k + 1)%nat by lia; apply Hku|].
  split; [assumption|]. split.
  - intros Hp1. rewrite KT, insR_le by lia. apply Hbef. lia.
  - eapply separated_incl; [|exact HS]. intros x [<- |Hx]; [left; reflexivity|]. eapply kv_insertion_in; [|exact Hx]. lia.
Qed.
Lemma split_u_spec s u : valid_surface s -> normalized_surface s -> separated eps15 (u :: knots_vector_u s) -> (1 <= bs_du s)%nat ->
  nth (bs_du s) (knots_vector_u s) 0 < u < nth (bs_nu s) (knots_vector_u s) 0 -> (occurrences u (knots_vector_u s) <= bs_du s)%nat ->
  exists s1 s2, split_surface_u s u = Ok (s1, s2) /\ valid_surface s1 /\ valid_surface s2 /\ normalized_surface s1 /\ normalized_surface s2 /\ split_u_ok s s1 s2 u.
Proof.
  intros HVS HN HS Hp1 Hu Hocc. pose proof HVS as (HU & HV & _).
  set (r := (bs_du s - occurrences u (knots_vector_u s))%nat). set (k := find_span_linear (bs_du s) (knots_vector_u s) (bs_nu s) u).
  destruct (span_data_kv _ _ _ u HU HS ltac:(lra)) as (Hmul & Hk & _). cbn zeta in *. fold k in Hk.
  assert (HT : exists t, insert_u s u r false = Ok t /\ valid_surface t /\ normalized_surface t /\ same_surface s t /\
     knots_vector_u t = knot_insertion_kv (knots_vector_u s) u k r /\ bs_nu t = (bs_nu s + r)%nat).
  { destruct (Nat.eq_dec r 0) as [E|E].
    - exists s. rewrite E. split; [reflexivity|]. split; [assumption|]. split; [assumption|]. split; [apply same_surface_refl|].
      pose proof HU as (HL & _). split; [rewrite kv_insertion_0 by lia; reflexivity|lia].
    - destruct (insU_spec s u r HVS HS) with (b := false) as (t & T); auto; try lra; try lia. exists t. tauto. }
  destruct HT as (t & T1 & T2 & T3 & T4 & T5 & T6). pose proof T4 as (T7 & T8 & T9).
  destruct (kv_full _ _ _ u r HU HS Hu ltac:(unfold r; lia)) as (K1 & K2 & K3 & K4 & K5 & K6 & K7). cbn zeta in *. fold k in K1, K2, K3, K4, K5, K6, K7. rewrite <- T5 in *.
  destruct (cut_u t u (k + r)) as (s1 & s2 & C1 & C2 & C3 & C4 & C5 & C6); rewrite ?T7, ?T6; auto; try lra.
  { split; [destruct K3; [assumption|lia]|assumption]. }
  exists s1, s2. split; [|split; [assumption|split; [assumption|split; [assumption|split; [assumption|]]]]].
  - unfold split_surface_u. rewrite (u_domain_eq s HVS). cbn [fst snd].
    assert (D1 : Reqb u (nth (bs_du s) (knots_vector_u s) 0) = false) by (apply Reqb_ne; lra).
    assert (D2 : Reqb u (nth (bs_nu s) (knots_vector_u s) 0) = false) by (apply Reqb_ne; lra).
    rewrite D1, D2. cbn [orb]. rewrite Hmul. fold r k. unfold insert_knot_surface. rewrite T1. cbn [bind]. unfold helper_split_knot_vectors. rewrite T7, T6.
    assert (SP : find_span_linear (bs_du s) (knots_vector_u t) (bs_nu s + r) u = (k + r)%nat).
    { apply span_unique; [rewrite <- T7, <- T6; apply T2|lra|lia|]. split; [destruct K3; [lra|lia]|assumption]. }
    rewrite SP. replace (k - bs_du s + 1 + r)%nat with (k + r - bs_du s + 1)%nat by lia. rewrite T7 in C1. exact C1.
  - destruct C6 as [C6 C7]. split; intros x y Hx Hy Hxu; destruct (T9 x y Hx Hy) as (X1 & X2 & X3); rewrite <- X3; auto.
Qed.
Lemma split_v_spec s u : valid_surface s -> normalized_surface s -> separated eps15 (u :: knots_vector_v s) -> (1 <= bs_dv s)%nat ->
  nth (bs_dv s) (knots_vector_v s) 0 < u < nth (bs_nv s) (knots_vector_v s) 0 -> (occurrences u (knots_vector_v s) <= bs_dv s)%nat ->
  exists s1 s2, split_surface_v s u = Ok (s1, s2) /\ valid_surface s1 /\ valid_surface s2 /\ normalized_surface s1 /\ normalized_surface s2 /\ split_v_ok s s1 s2 u.
Proof.
  intros HVS HN HS Hp1 Hu Hocc. pose proof HVS as (HU & HV & _).
  set (r := (bs_dv s - occurrences u (knots_vector_v s))%nat). set (k := find_span_linear (bs_dv s) (knots_vector_v s) (bs_nv s) u).
  destruct (span_data_kv _ _ _ u HV HS ltac:(lra)) as (Hmul & Hk & _). cbn zeta in *. fold k in Hk.
  assert (HT : exists t, insert_v s u r false = Ok t /\ valid_surface t /\ normalized_surface t /\ same_surface s t /\
     knots_vector_v t = knot_insertion_kv (knots_vector_v s) u k r /\ bs_nv t = (bs_nv s + r)%nat).
  { destruct (Nat.eq_dec r 0) as [E|E].
    - exists s. rewrite E. split; [reflexivity|]. split; [assumption|]. split; [assumption|]. split; [apply same_surface_refl|].
      pose proof HV as (HL & _). split; [rewrite kv_insertion_0 by lia; reflexivity|lia].
    - destruct (insV_spec s u r HVS HS) with (b := false) as (t & T); auto; try lra; try lia. exists t. tauto. }
  destruct HT as (t & T1 & T2 & T3 & T4 & T5 & T6). pose proof T4 as (T7 & T8 & T9).
  destruct (kv_full _ _ _ u r HV HS Hu ltac:(unfold r; lia)) as (K1 & K2 & K3 & K4 & K5 & K6 & K7). cbn zeta in *. fold k in K1, K2, K3, K4, K5, K6, K7. rewrite <- T5 in *.
  destruct (cut_v t u (k + r)) as (s1 & s2 & C1 & C2 & C3 & C4 & C5 & C6); rewrite ?T8, ?T6; auto; try lra.
  { split; [destruct K3; [assumption|lia]|assumption]. }
  exists s1, s2. split; [|split; [assumption|split; [assumption|split; [assumption|split; [assumption|]]]]].
  - unfold split_surface_v. rewrite (v_domain_eq s HVS). cbn [fst snd].
    assert (D1 : Reqb u (nth (bs_dv s) (knots_vector_v s) 0) = false) by (apply Reqb_ne; lra).
    assert (D2 : Reqb u (nth (bs_nv s) (knots_vector_v s) 0) = false) by (apply Reqb_ne; lra).
    rewrite D1, D2. cbn [orb]. rewrite Hmul. fold r k. unfold insert_knot_surface. cbn [bind]. rewrite T1. cbn [bind]. unfold helper_split_knot_vectors. rewrite T8, T6.
    assert (SP : find_span_linear (bs_dv s) (knots_vector_v t) (bs_nv s + r) u = (k + r)%nat).
    { apply span_unique; [rewrite <- T8, <- T6; apply T2|lra|lia|]. split; [destruct K3; [lra|lia]|assumption]. }
    rewrite SP. replace (k - bs_dv s + 1 + r)%nat with (k + r - bs_dv s + 1)%nat by lia. rewrite T8 in C1. exact C1.
  - destruct C6 as [C6 C7]. split; intros x y Hx Hy Hxu; destruct (T9 x y Hx Hy) as (X1 & X2 & X3); rewrite <- X3; auto.
Qed.
Lemma split_u_ends s u : u = fst (u_domain s) \/ u = snd (u_domain s) -> split_surface_u s u = Err ValueError.
Proof.
  intros [H|H]; unfold split_surface_u.
  - assert (Reqb u (fst (u_domain s)) = true) as -> by (apply Reqb_spec; assumption). reflexivity.
  - assert (Reqb u (snd (u_domain s)) = true) as -> by (apply Reqb_spec; assumption). rewrite orb_true_r. reflexivity.
Qed.
Lemma split_v_ends s u : u = fst (v_domain s) \/ u = snd (v_domain s) -> split_surface_v s u = Err ValueError.
Proof.
  intros [H|H]; unfold split_surface_v.
  - assert (Reqb u (fst (v_domain s)) = true) as -> by (apply Reqb_spec; assumption). reflexivity.
  - assert (Reqb u (snd (v_domain s)) = true) as -> by (apply Reqb_spec; assumption). rewrite orb_true_r. reflexivity.
Qed.
