(** Knot vector generation, normalisation, insertion in (knots, multiplicities); binomial coefficients. *)
From Coq Require Import Lia Lra Psatz Permutation.
From Verif.Model Require Import RBase Nurbs.
From Verif.Spec Require Import NurbsSpec CurveSpec.
From Verif.Proofs Require Import VecP NurbsP NurbsP2 NurbsP3 BoehmP InsertP KnotsP InsertCurveP SplitP SplitP2.
Open Scope R_scope.

(** ** linspace and generate_knot_vector *)
Lemma linspace01 num : linspace 0 1 num = map (fun x => INR x / INR (num - 1)) (seq 0 num).
Proof.
  unfold linspace. destruct (Rleb (Rabs (0 - 1)) eps_lin) eqn:E.
  - apply Rleb_spec in E. unfold eps_lin in E. replace (0 - 1) with (-1) in E by ring. rewrite Rabs_left in E by lra.
    assert (10 * / 10 ^ 8 < 1); [|lra]. replace (10 ^ 8) with 100000000 by ring. lra.
  - apply map_ext. intros x. unfold Rdiv. ring.
Qed.
Lemma linspace01_nth num i : (i < num)%nat -> nth i (linspace 0 1 num) 0 = INR i / INR (num - 1).
Proof.
  intros H. rewrite linspace01. rewrite (nth_indep _ 0 (INR 0 / INR (num - 1))) by (rewrite map_length, seq_length; assumption).
  rewrite (map_nth (fun x => INR x / INR (num - 1))). rewrite seq_nth by assumption. reflexivity.
Qed.
Lemma linspace01_len num : length (linspace 0 1 num) = num.
Proof. rewrite linspace01, map_length, seq_length. reflexivity. Qed.
Lemma ratio_mono a b m : (a <= b)%nat -> (0 < m)%nat -> INR a / INR m <= INR b / INR m.
Proof.
  intros H Hm. apply le_INR in H. apply lt_0_INR in Hm. unfold Rdiv. apply Rmult_le_compat_r; [apply Rlt_le, Rinv_0_lt_compat|]; assumption.
Qed.
Lemma ratio_lt a b m : (a < b)%nat -> (0 < m)%nat -> INR a / INR m < INR b / INR m.
Proof.
  intros H Hm. apply lt_INR in H. apply lt_0_INR in Hm. unfold Rdiv. apply Rmult_lt_compat_r; [apply Rinv_0_lt_compat|]; assumption.
Qed.
Lemma generate_clamped p n : (1 <= p)%nat -> (p + 1 <= n)%nat ->
  exists U, generate_knot_vector p n true = Ok U /\ length U = (n + p + 1)%nat /\
    (forall i, (i <= p)%nat -> nth i U 0 = 0) /\ (forall k, (k <= n - p)%nat -> nth (p + k) U 0 = INR k / INR (n - p)) /\
    (forall i, (n <= i <= n + p)%nat -> nth i U 0 = 1) /\ valid_kv p n U /\ clamped_kv p n U.
Proof.
  intros Hp Hn. unfold generate_knot_vector. destruct (Nat.eqb_spec p 0); [lia|]. destruct (Nat.eqb_spec n 0); [lia|]. cbn [orb].
  destruct (Nat.ltb_spec (n + 1) p); [lia|]. eexists. split; [reflexivity|]. set (U := _ ++ _).
  assert (HL : length U = (n + p + 1)%nat) by (unfold U; rewrite !app_length, !repeat_length, linspace01_len; lia).
  assert (Hlo : forall i, (i < p)%nat -> nth i U 0 = 0) by (intros i Hi; unfold U; rewrite app_nth1 by (rewrite repeat_length; assumption); apply nth_repeat).
  assert (Hmid : forall k, (k <= n - p)%nat -> nth (p + k) U 0 = INR k / INR (n - p)).
  { intros k Hk. unfold U. rewrite app_nth2 by (rewrite repeat_length; lia). rewrite repeat_length, app_nth1 by (rewrite linspace01_len; lia).
    replace (p + k - p)%nat with k by lia. rewrite linspace01_nth by lia. replace (n + 1 - p - 1)%nat with (n - p)%nat by lia. reflexivity. }
  assert (Hhi0 : forall i, (n < i <= n + p)%nat -> nth i U 0 = 1).
  { intros i Hi. unfold U. rewrite !app_nth2 by (rewrite ?repeat_length, ?linspace01_len; lia). rewrite repeat_length, linspace01_len.
    apply nth_repeat_lt. lia. }
  assert (Np : 0 < INR (n - p)) by (apply lt_0_INR; lia).
  assert (Hlo' : forall i, (i <= p)%nat -> nth i U 0 = 0).
  { intros i Hi. destruct (Nat.eq_dec i p) as [->|]; [|apply Hlo; lia]. rewrite <- (Nat.add_0_r p) at 1. rewrite Hmid by lia. cbn [INR]. unfold Rdiv. ring. }
  assert (Hhi : forall i, (n <= i <= n + p)%nat -> nth i U 0 = 1).
  { intros i Hi. destruct (Nat.eq_dec i n) as [->|]; [|apply Hhi0; lia]. replace n with (p + (n - p))%nat at 1 by lia. rewrite Hmid by lia. field. lra. }
  assert (Hso : sorted_knots U).
  { intros i j Hij Hj. rewrite HL in Hj.
    assert (forall i, (i < n + p + 1)%nat -> nth i U 0 = INR (Nat.min (i - p) (n - p)) / INR (n - p)) as F.
    { intros a Ha. destruct (le_dec a p); [rewrite Hlo' by assumption; replace (Nat.min (a - p) (n - p)) with 0%nat by lia; cbn [INR]; unfold Rdiv; ring|].
      destruct (le_dec a n); [replace a with (p + (a - p))%nat at 1 by lia; rewrite Hmid by lia; replace (Nat.min (a - p) (n - p)) with (a - p)%nat by lia; reflexivity|].
      rewrite Hhi by lia. replace (Nat.min (a - p) (n - p)) with (n - p)%nat by lia. field. lra. }
    rewrite !F by lia. apply ratio_mono; lia. }
  split; [assumption|]. split; [assumption|]. split; [assumption|]. split; [assumption|]. split.
  - split; [assumption|]. split; [lia|]. split; [assumption|]. rewrite (Hhi n) by lia.
    replace (n - 1)%nat with (p + (n - 1 - p))%nat by lia. rewrite Hmid by lia. replace 1 with (INR (n - p) / INR (n - p)) by (field; lra). apply ratio_lt; lia.
  - split; [intros i Hi; rewrite !Hlo' by lia; reflexivity|]. split; [intros i Hi; rewrite !Hhi by lia; reflexivity|].
    rewrite Hlo' by lia. rewrite Hmid by lia. replace 0 with (INR 0 / INR (n - p)) by (cbn [INR]; unfold Rdiv; ring). apply ratio_lt; lia.
Qed.
Lemma generate_unclamped p n : (1 <= p)%nat -> (1 <= n)%nat ->
  exists U, generate_knot_vector p n false = Ok U /\ length U = (n + p + 1)%nat /\
    (forall i, (i <= n + p)%nat -> nth i U 0 = INR i / INR (n + p)) /\ increasing U /\ nth 0 U 0 = 0 /\ last U 0 = 1.
Proof.
  intros Hp Hn. unfold generate_knot_vector. destruct (Nat.eqb_spec p 0); [lia|]. destruct (Nat.eqb_spec n 0); [lia|]. cbn [orb].
  eexists. split; [reflexivity|]. set (U := linspace _ _ _).
  assert (HL : length U = (n + p + 1)%nat) by (unfold U; rewrite linspace01_len; lia).
  assert (F : forall i, (i <= n + p)%nat -> nth i U 0 = INR i / INR (n + p)).
  { intros i Hi. unfold U. rewrite linspace01_nth by lia. replace (p + n + 1 - 1)%nat with (n + p)%nat by lia. reflexivity. }
  assert (0 < INR (n + p)) by (apply lt_0_INR; lia).
  split; [assumption|]. split; [assumption|]. split; [intros i j Hij Hj; rewrite !F by lia; apply ratio_lt; lia|].
  split; [rewrite F by lia; cbn [INR]; unfold Rdiv; ring|].
  rewrite (last_nth_R U 0 (n + p)) by assumption. rewrite F by lia. field. lra.
Qed.
Lemma generate_zero p n b : p = 0%nat \/ n = 0%nat -> generate_knot_vector p n b = Err ValueError.
Proof. intros [-> | ->]; unfold generate_knot_vector; [reflexivity|]. rewrite Bool.orb_true_r. reflexivity. Qed.

(** ** standardize_knot_vector *)
Lemma standardize_spec U : U <> [] -> last U 0 <> hd 0 U ->
  exists V, standardize_knot_vector U = Ok V /\ length V = length U /\
    (forall i, (i < length U)%nat -> nth i V 0 = (nth i U 0 - hd 0 U) / (last U 0 - hd 0 U)) /\ hd 0 V = 0 /\ last V 0 = 1 /\
    (hd 0 U < last U 0 -> forall i j, (i < length U)%nat -> (j < length U)%nat -> (nth i V 0 <= nth j V 0 <-> nth i U 0 <= nth j U 0)).
Proof.
  intros Hne Hd. destruct U as [|a t]; [contradiction|]. unfold standardize_knot_vector. cbn [hd] in *.
  destruct (Reqb (last (a :: t) 0 - a) 0) eqn:E; [apply Reqb_spec in E; lra|].
  set (U := a :: t) in *. set (d := last U 0 - a) in *. assert (d <> 0) by (unfold d; lra).
  eexists. split; [reflexivity|]. change (fun k : R => (k - a) / d) with (aff a d).
  split; [apply map_length|]. split; [intros i Hi; rewrite nth_map_lt by assumption; reflexivity|].
  split; [unfold U; cbn [map hd]; unfold aff; field; assumption|].
  split.
  - destruct (@exists_last _ U Hne) as (l & x & EU). assert (last U 0 = x) by (rewrite EU; apply last_last).
    rewrite EU. rewrite map_app. cbn [map]. rewrite last_last. unfold aff, d. rewrite H0. field. unfold d in H. rewrite H0 in H. assumption.
  - intros Hlt i j Hi Hj. rewrite !nth_map_lt by assumption. apply aff_le. unfold d. lra.
Qed.
Lemma standardize_errors U : (U = [] -> standardize_knot_vector U = Err IndexError) /\
  (U <> [] -> last U 0 = hd 0 U -> standardize_knot_vector U = Err ZeroDivisionError).
Proof.
  split; [intros ->; reflexivity|]. intros Hne E. destruct U as [|a t]; [contradiction|]. unfold standardize_knot_vector. cbn [hd] in E.
  rewrite E. assert (Reqb (a - a) 0 = true) as -> by (apply Reqb_spec; ring). reflexivity.
Qed.

(** ** BSplineCurve(...) *)
Lemma bcurve_new_spec p P ms ks w : increasing ks -> (2 <= length ks)%nat ->
  (match w with Some l => any_nonzero l = true | None => True end) ->
  valid_curve (mkbcurve p P ms ks w) ->
  exists c, bcurve_new p P ms ks w = Ok c /\ bc_degree c = p /\ bc_ctrlpts c = P /\ bc_mults c = ms /\ bc_weights c = w /\
    hd 0 (bc_knots c) = 0 /\ last (bc_knots c) 0 = 1 /\ valid_curve c /\
    forall x, in_domain (mkbcurve p P ms ks w) x ->
      in_domain c ((x - hd 0 ks) / (last ks 0 - hd 0 ks)) /\
      curve_point c ((x - hd 0 ks) / (last ks 0 - hd 0 ks)) = curve_point (mkbcurve p P ms ks w) x.
Proof.
  intros Hi H2 Hw HVC. set (c0 := mkbcurve p P ms ks w) in *.
  assert (Hlt : hd 0 ks < last ks 0).
  { rewrite <- nth_hd. rewrite (last_nth_R ks 0 (length ks - 1)) by lia. apply Hi; lia. }
  destruct (standardize_spec ks) as (V & E & LV & NV & H0 & H1 & _); [intros ->; cbn in H2; lia|lra|].
  unfold bcurve_new. rewrite E. assert (EW : match w with Some w0 => if any_nonzero w0 then Some w0 else None | None => None end = w) by (destruct w; [rewrite Hw|]; reflexivity).
  rewrite EW. eexists. split; [reflexivity|]. cbn [bc_degree bc_ctrlpts bc_mults bc_weights bc_knots]. set (c := mkbcurve p P ms V w).
  set (a := hd 0 ks) in *. set (d := last ks 0 - a) in *. assert (Hd : 0 < d) by (unfold d; lra).
  assert (EV : V = map (aff a d) ks).
  { apply list_eq_nth; [rewrite map_length; assumption|]. intros i Hi'. rewrite NV by lia. rewrite nth_map_lt by lia. reflexivity. }
  assert (EK : knotvector c = map (aff a d) (knotvector c0)) by (unfold knotvector; cbn [bc_knots bc_mults c c0]; rewrite EV; apply expand_map).
  destruct HVC as (HV & HD & HW). pose proof HV as (HL & Hp & Hso & Hl). cbn [bc_degree bc_ctrlpts c0] in HL, Hp, Hl.
  do 6 (split; [reflexivity || assumption|]). split.
  - split; [cbn [bc_degree bc_ctrlpts c]; rewrite EK; apply valid_aff; assumption|]. split; [exact HD|exact HW].
  - intros x Hx. change ((x - a) / d) with (aff a d x). unfold in_domain in Hx |- *. cbn [bc_degree bc_ctrlpts c c0] in Hx |- *. split.
    + rewrite EK. rewrite !nth_map_lt by lia. split; apply aff_le; lra.
    + apply (same_points c0 c (fun l => l) (aff a d) x); try reflexivity; auto.
      * split; [assumption|]. split; assumption.
      * cbn [bc_weights c c0]. destruct w as [w|]; [|reflexivity]. exists w. split; [reflexivity|]. split; [apply HW|reflexivity].
      * intros P' HP' j. cbn [bc_ctrlpts bc_degree c0] in *. rewrite EK.
        destruct (span_in_span p (knotvector c0) (length P) x HV Hx) as [Hin Hs]. set (s := find_span_linear _ _ _ _) in *.
        rewrite (bspline_piece p (knotvector c0) P' j x s) by (rewrite HP'; assumption).
        rewrite (bspline_piece p _ P' j (aff a d x) s).
        -- apply Rsum_ext. intros i Hi'. rewrite piece_aff_list by (try assumption; lia). reflexivity.
        -- rewrite HP'. apply valid_aff; assumption.
        -- rewrite HP'. apply in_span_aff; try assumption; lia.
Qed.

(** ** insert_knots_and_mutiplicity *)
Lemma insert_km_loop_spec u num : forall ks ms K M i, length ms = length ks ->
  insert_km_loop ks ms u num K M i =
   match find (fun j => Rltb u (nth j ks 0)) (seq 0 (length ks)) with
   | Some j => (K ++ firstn j ks ++ u :: skipn j ks, M ++ firstn j ms ++ num :: skipn j ms, (i + j)%nat)
   | None => (K ++ ks, M ++ ms, (i + (length ks - 1))%nat)
   end.
Proof.
  induction ks as [|k kr IH]; intros [|m mr] K M i HL; try discriminate; cbn [insert_km_loop length seq find].
  - rewrite !app_nil_r. f_equal. lia.
  - cbn [nth]. destruct (Rltb u k) eqn:E.
    + cbn [firstn skipn app]. f_equal. lia.
    + destruct kr as [|k' kr'].
      * destruct mr; [|discriminate]. cbn [length seq find]. f_equal. cbn. lia.
      * rewrite IH by (cbn in HL |- *; lia). rewrite <- (seq_shift (length (k' :: kr')) 0).
        assert (G : forall (f : nat -> bool) l, find f (map S l) = option_map S (find (fun j => f (S j)) l)).
        { intros f l. induction l as [|x l IHl]; cbn [map find]; [reflexivity|]. destruct (f (S x)); [reflexivity|assumption]. }
        rewrite G. cbn [nth]. change (fun j : nat => Rltb u (nth j (k' :: kr') 0)) with (fun j : nat => Rltb u (nth j (k' :: kr') 0)).
        destruct (find _ (seq 0 (length (k' :: kr')))) as [j|]; cbn [option_map].
        -- cbn [firstn skipn]. rewrite <- !app_assoc. cbn [app]. f_equal. lia.
        -- rewrite <- !app_assoc. cbn [app]. f_equal. cbn [length]. lia.
Qed.
Lemma find_first (f : nat -> bool) n j : find f (seq 0 n) = Some j -> (j < n)%nat /\ f j = true /\ forall i, (i < j)%nat -> f i = false.
Proof.
  assert (G : forall m a, find f (seq a m) = Some j -> (a <= j < a + m)%nat /\ f j = true /\ forall i, (a <= i < j)%nat -> f i = false).
  { induction m; intros a; cbn [seq find]; [discriminate|]. destruct (f a) eqn:E.
    - intros [= <-]. split; [lia|]. split; [assumption|]. intros; lia.
    - intros H. destruct (IHm _ H) as (A & B & C). split; [lia|]. split; [assumption|]. intros i Hi. destruct (Nat.eq_dec i a) as [->|]; [assumption|apply C; lia]. }
  intros H. destruct (G _ _ H) as (A & B & C). split; [lia|]. split; [assumption|]. intros; apply C; lia.
Qed.
Lemma expand_insert u num j : forall ks ms x, length ms = length ks ->
  occurrences x (expand_knots (firstn j ks ++ u :: skipn j ks) (firstn j ms ++ num :: skipn j ms)) =
  (occurrences x (expand_knots ks ms) + if Req_EM_T x u then num else 0)%nat.
Proof.
  assert (OR : forall m x k, occurrences x (repeat k m) = if Req_EM_T x k then m else 0%nat).
  { intros m x k. unfold occurrences. induction m; cbn; [destruct (Req_EM_T x k); reflexivity|]. rewrite IHm.
    destruct (Req_EM_T k x), (Req_EM_T x k); congruence. }
  induction j; intros [|k ks] [|m ms] x HL; try discriminate; cbn [firstn skipn app]; rewrite ?expand_cons, ?occ_app, ?OR; try (cbn; lia).
  rewrite IHj by (cbn in HL; lia). lia.
Qed.
Lemma insert_km_new ks ms u num : increasing ks -> length ms = length ks -> ~ In u ks -> (exists k, In k ks /\ u < k) ->
  exists ks' ms' i, insert_knots_and_mutiplicity ks ms u num = (ks', ms', i) /\
    length ks' = S (length ks) /\ length ms' = length ks' /\ increasing ks' /\ (i < length ks')%nat /\ nth i ks' 0 = u /\ nth i ms' 0%nat = num /\
    forall x, occurrences x (expand_knots ks' ms') = (occurrences x (expand_knots ks ms) + if Req_EM_T x u then num else 0)%nat.
Proof.
  intros Hi HL Hnot (k & Hk & Huk). unfold insert_knots_and_mutiplicity. rewrite insert_km_loop_spec by assumption.
  destruct (find _ _) as [j|] eqn:E.
  2:{ destruct (In_nth _ _ 0 Hk) as (a & Ha & Ea).
      assert (X : Rltb u (nth a ks 0) = false) by (apply (find_none _ _ E); apply in_seq; lia). rewrite Ea in X.
      apply Rltb_false in X. lra. }
  destruct (find_first _ _ _ E) as (Hj & Hjt & Hjf). apply Rltb_spec in Hjt. cbn [app Nat.add].
  assert (Lf : length (firstn j ks) = j) by (rewrite firstn_length; lia). assert (Lm : length (firstn j ms) = j) by (rewrite firstn_length; lia).
  eexists _, _, _. split; [reflexivity|]. rewrite !app_length. cbn [length]. rewrite !skipn_length, Lf, Lm.
  split; [lia|]. split; [lia|]. split.
  - intros a b Hab Hb. rewrite app_length in Hb. cbn [length] in Hb. rewrite skipn_length, Lf in Hb.
    assert (N : forall c, (c < S (length ks))%nat -> nth c (firstn j ks ++ u :: skipn j ks) 0 = if (c <? j)%nat then nth c ks 0 else if (c =? j)%nat then u else nth (c - 1) ks 0).
    { intros c Hc. destruct (Nat.ltb_spec c j).
      - rewrite app_nth1 by lia. apply firstn_nth. assumption.
      - rewrite app_nth2 by lia. rewrite Lf. destruct (Nat.eqb_spec c j) as [->|]; [rewrite Nat.sub_diag; reflexivity|].
        destruct (c - j)%nat as [|q] eqn:Q; [lia|]. cbn [nth]. rewrite skipn_nth. f_equal. lia. }
    rewrite !N by lia. assert (B : forall c, (c < j)%nat -> nth c ks 0 < u).
    { intros c Hc. specialize (Hjf c Hc). apply Rltb_false in Hjf. destruct (Rlt_le_dec (nth c ks 0) u); [assumption|]. exfalso. apply Hnot. replace u with (nth c ks 0) by lra. apply nth_In. lia. }
    destruct (Nat.ltb_spec a j), (Nat.ltb_spec b j); try lia.
    + apply Hi; lia.
    + destruct (Nat.eqb_spec b j); [apply B; assumption|]. apply Hi; lia.
    + destruct (Nat.eqb_spec a j), (Nat.eqb_spec b j); try lia; [|apply Hi; lia].
      apply Rlt_le_trans with (nth j ks 0); [assumption|]. destruct (Nat.eq_dec (b - 1) j) as [->|]; [lra|apply Rlt_le, Hi; lia].
  - split; [lia|]. rewrite !app_nth2 by lia. rewrite Lf, Lm, Nat.sub_diag. cbn [nth]. split; [reflexivity|]. split; [reflexivity|].
    intros x. apply expand_insert. assumption.
Qed.
(** A knot of the list that is not the last one is inserted a second time. *)
Lemma insert_km_existing ks ms u num : increasing ks -> length ms = length ks -> In u ks -> (exists k, In k ks /\ u < k) ->
  exists ks' ms' i, insert_knots_and_mutiplicity ks ms u num = (ks', ms', i) /\ ~ increasing ks' /\ occurrences u ks' = 2%nat.
Proof.
  intros Hi HL Hin (k & Hk & Huk). unfold insert_knots_and_mutiplicity. rewrite insert_km_loop_spec by assumption.
  destruct (find _ _) as [j|] eqn:E.
  2:{ destruct (In_nth _ _ 0 Hk) as (a & Ha & Ea).
      assert (X : Rltb u (nth a ks 0) = false) by (apply (find_none _ _ E); apply in_seq; lia). rewrite Ea in X. apply Rltb_false in X. lra. }
  destruct (find_first _ _ _ E) as (Hj & Hjt & Hjf). apply Rltb_spec in Hjt. cbn [app Nat.add].
  eexists _, _, _. split; [reflexivity|]. assert (Lf : length (firstn j ks) = j) by (rewrite firstn_length; lia).
  assert (O1 : occurrences u ks = 1%nat).
  { assert (ND : NoDup ks). { apply (NoDup_nth ks 0). intros a b Ha Hb Eab. destruct (lt_eq_lt_dec a b) as [[H|H]|H]; [|assumption|]; [pose proof (Hi a b H Hb)|pose proof (Hi b a H Ha)]; lra. }
    unfold occurrences. apply NoDup_count_occ'; assumption. }
  split.
  - intros HI. destruct (In_nth _ _ 0 Hin) as (a & Ha & Ea).
    assert (a < j)%nat. { destruct (lt_dec a j); [assumption|]. destruct (Nat.eq_dec a j) as [->|]; [lra|]. pose proof (Hi j a ltac:(lia) Ha). lra. }
    specialize (HI a j ltac:(lia)). rewrite app_length in HI. cbn [length] in HI. rewrite Lf in HI. specialize (HI ltac:(lia)).
    rewrite app_nth1 in HI by lia. rewrite app_nth2 in HI by lia. rewrite Lf, Nat.sub_diag in HI. cbn [nth] in HI. rewrite firstn_nth in HI by assumption. lra.
  - rewrite occ_app. change (u :: skipn j ks) with ([u] ++ skipn j ks). rewrite occ_app. rewrite <- (firstn_skipn j ks) in O1. rewrite occ_app in O1.
    assert (occurrences u [u] = 1%nat) by (unfold occurrences; cbn; destruct (Req_EM_T u u); [reflexivity|contradiction]). lia.
Qed.
(** A knot that is not below some knot of the list is not inserted at all. *)
Lemma insert_km_past_end ks ms u num : length ms = length ks -> (forall k, In k ks -> k <= u) ->
  insert_knots_and_mutiplicity ks ms u num = (ks, ms, (length ks - 1)%nat).
Proof.
  intros HL H. unfold insert_knots_and_mutiplicity. rewrite insert_km_loop_spec by assumption. destruct (find _ _) as [j|] eqn:E; [|reflexivity].
  destruct (find_first _ _ _ E) as (Hj & Hjt & _). apply Rltb_spec in Hjt. specialize (H (nth j ks 0) ltac:(apply nth_In; lia)). lra.
Qed.

(** ** binomial_coefficient *)
Lemma binomial_spec k i : binomial_coefficient k i = if (k <? i)%nat then 0 else INR (fact k) / (INR (fact i) * INR (fact (k - i))).
Proof.
  unfold binomial_coefficient. destruct (Nat.ltb_spec k i); [reflexivity|].
  assert (F : forall m, INR (fact m) <> 0) by apply INR_fact_neq_0.
  assert (G : forall m, (m <= i)%nat -> fold_left (fun r j => r * (INR (k - j) / INR (i - j))) (seq 0 m) 1 =
     (INR (fact k) / INR (fact (k - m))) / (INR (fact i) / INR (fact (i - m)))).
  { induction m; intros Hm.
    - cbn [seq fold_left]. rewrite !Nat.sub_0_r. field. split; apply F.
    - rewrite seq_S, fold_left_app, IHm by lia. cbn [fold_left Nat.add].
      replace (k - m)%nat with (S (k - S m)) by lia. replace (i - m)%nat with (S (i - S m)) by lia.
      rewrite !fact_simpl, !mult_INR. assert (INR (S (k - S m)) <> 0) by (apply not_0_INR; lia). assert (INR (S (i - S m)) <> 0) by (apply not_0_INR; lia).
      field. repeat split; auto. }
  destruct (Nat.eqb_spec i 0) as [->|]; cbn [orb].
  - rewrite Nat.sub_0_r. change (INR (fact 0)) with 1. field. apply F.
  - destruct (Nat.eqb_spec i k) as [->|].
    + rewrite Nat.sub_diag. change (INR (fact 0)) with 1. field. apply F.
    + rewrite G by lia. rewrite Nat.sub_diag. change (INR (fact 0)) with 1. field. repeat split; apply F.
Qed.
