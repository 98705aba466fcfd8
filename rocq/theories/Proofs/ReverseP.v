(** get_reverse; continuity of the curve at a knot of multiplicity at most the degree. *)
From Coq Require Import Lia Lra Psatz Permutation.
From Verif.Model Require Import RBase Nurbs.
From Verif.Spec Require Import NurbsSpec CurveSpec.
From Verif.Proofs Require Import VecP NurbsP NurbsP2 NurbsP3 BoehmP InsertP KnotsP InsertCurveP SplitP SplitP2 KnotGenP.
Open Scope R_scope.

(** At a knot x = U_{a+1} = ... = U_{a+m} of multiplicity m <= p, the pieces of the spans a and a+m agree. *)
Lemma piece_left U a m x : U a < x -> (forall i, (a < i <= a + m)%nat -> U i = x) ->
  forall q, (q <= m)%nat -> forall i, piece U a q i x = if Nat.eq_dec i a then 1 else 0.
Proof.
  intros Ha Hx q. induction q; intros Hq i; cbn [piece]; [reflexivity|]. rewrite !IHq by lia.
  destruct (Nat.eq_dec i a) as [->|Hi].
  - destruct (Nat.eq_dec (a + 1) a); [lia|]. rewrite (Hx (a + S q)%nat) by lia. rewrite div0_nz by lra. field. lra.
  - destruct (Nat.eq_dec (i + 1) a) as [E|]; [|ring]. replace (i + S q + 1)%nat with (a + S q)%nat by lia. rewrite (Hx (a + S q)%nat) by lia.
    rewrite Rmult_0_r. unfold div0. destruct (Req_EM_T _ 0); [ring|]. unfold Rdiv. ring.
Qed.
Lemma piece_right U a m x : x < U (a + m + 1)%nat -> (forall i, (a < i <= a + m)%nat -> U i = x) ->
  forall q, (q <= m)%nat -> forall i, piece U (a + m) q i x = if Nat.eq_dec (i + q) (a + m) then 1 else 0.
Proof.
  intros Hb Hx q. induction q; intros Hq i; cbn [piece]; [rewrite Nat.add_0_r; reflexivity|]. rewrite !IHq by lia.
  destruct (Nat.eq_dec (i + S q) (a + m)) as [E|Hi].
  - destruct (Nat.eq_dec (i + q) (a + m)); [lia|]. destruct (Nat.eq_dec (i + 1 + q) (a + m)); [|lia]. replace (i + S q + 1)%nat with (a + m + 1)%nat by lia.
    rewrite (Hx (i + 1)%nat) by lia. rewrite (div0_nz (U (a + m + 1)%nat - x)) by lra. field. lra.
  - destruct (Nat.eq_dec (i + 1 + q) (a + m)) as [E|]; [lia|]. destruct (Nat.eq_dec (i + q) (a + m)) as [E|]; [|ring].
    rewrite (Hx i) by lia. rewrite Rmult_0_r. unfold div0. destruct (Req_EM_T _ 0); [ring|]. unfold Rdiv. ring.
Qed.
Lemma piece_continuous U a m x p : U a < x -> x < U (a + m + 1)%nat -> (forall i, (a < i <= a + m)%nat -> U i = x) -> (m <= p)%nat ->
  forall i, piece U a p i x = piece U (a + m) p i x.
Proof.
  intros Ha Hb Hx Hm. replace p with (m + (p - m))%nat by lia. induction (p - m)%nat as [|q IH]; intros i.
  - rewrite Nat.add_0_r. rewrite (piece_left U a m x Ha Hx) by lia. rewrite (piece_right U a m x Hb Hx) by lia.
    destruct (Nat.eq_dec i a), (Nat.eq_dec (i + m) (a + m)); try lia; reflexivity.
  - replace (m + S q)%nat with (S (m + q)) by lia. cbn [piece]. rewrite !IH. reflexivity.
Qed.
(** Reflection of the knots. *)
Lemma div0_neg x y z w : div0 (x - y) (z - w) = div0 (y - x) (w - z).
Proof.
  unfold div0. destruct (Req_EM_T (z - w) 0), (Req_EM_T (w - z) 0); try lra. field. split; assumption.
Qed.
Lemma piece_reflect U M s x : (s < M)%nat -> forall q i, (i + q + 1 <= M)%nat ->
  piece (fun j => 1 - U (M - j)%nat) (M - 1 - s) q i (1 - x) = piece U s q (M - 1 - q - i) x.
Proof.
  intros Hs q. induction q; intros i Hi; cbn [piece].
  - destruct (Nat.eq_dec i (M - 1 - s)), (Nat.eq_dec (M - 1 - 0 - i) s); try lia; reflexivity.
  - rewrite !IHq by lia. replace (M - 1 - q - (i + 1))%nat with (M - 1 - S q - i)%nat by lia.
    replace (M - 1 - q - i)%nat with (M - 1 - S q - i + 1)%nat by lia.
    rewrite Rplus_comm. f_equal; f_equal.
    + replace (M - (i + S q + 1))%nat with (M - 1 - S q - i)%nat by lia. replace (M - (i + 1))%nat with (M - 1 - S q - i + S q)%nat by lia.
      rewrite div0_neg. unfold div0. set (A := U (M - 1 - S q - i)%nat). set (B := U (M - 1 - S q - i + S q)%nat).
      replace (1 - x - (1 - A)) with (A - x) by ring. replace (1 - B - (1 - A)) with (A - B) by ring.
      replace (B - A) with (- (A - B)) by ring. replace (x - A) with (- (A - x)) by ring.
      destruct (Req_EM_T (A - B) 0), (Req_EM_T (- (A - B)) 0); try lra. field. assumption.
    + replace (M - (i + S q))%nat with (M - 1 - S q - i + 1)%nat by lia. replace (M - i)%nat with (M - 1 - S q - i + S q + 1)%nat by lia.
      set (A := U (M - 1 - S q - i + 1)%nat). set (B := U (M - 1 - S q - i + S q + 1)%nat).
      replace (1 - x - (1 - B)) with (B - x) by ring. replace (1 - A - (1 - B)) with (B - A) by ring. reflexivity.
Qed.

Definition rflip (U : list R) : list R := map (fun k => 1 - k) (rev U).
Lemma rflip_nth U i : (i < length U)%nat -> nth i (rflip U) 0 = 1 - nth (length U - 1 - i) U 0.
Proof.
  intros H. unfold rflip. rewrite nth_map_lt by (rewrite rev_length; assumption). rewrite rev_nth by assumption. f_equal. f_equal. lia.
Qed.
Lemma rflip_len U : length (rflip U) = length U. Proof. unfold rflip. rewrite map_length, rev_length. reflexivity. Qed.
Lemma Rsum_rev f n : Rsum (fun i => f (n - 1 - i)%nat) n = Rsum f n.
Proof.
  revert f. induction n; intros f; [reflexivity|]. rewrite Rsum_S_l, Rsum_S. rewrite <- (IHn f). rewrite Rplus_comm. f_equal.
  - apply Rsum_ext. intros i Hi. f_equal. lia.
  - f_equal. lia.
Qed.

Section REV.
Variables (p n : nat) (U : list R).
Hypothesis HV : valid_kv p n U.
Hypothesis Hfirst : nth p U 0 < nth (p + 1) U 0.
Hypothesis Hmult : forall x, nth p U 0 < x < nth n U 0 -> (occurrences x U <= p)%nat.
Lemma rflip_valid : valid_kv p n (rflip U).
Proof.
  pose proof HV as (HL & Hp & Hso & Hl). split; [rewrite rflip_len; assumption|]. split; [assumption|]. split.
  - intros i j Hij Hj. rewrite rflip_len in Hj. rewrite !rflip_nth by lia. assert (nth (length U - 1 - j) U 0 <= nth (length U - 1 - i) U 0) by (apply Hso; lia). lra.
  - rewrite !rflip_nth by lia. rewrite HL. replace (n + p + 1 - 1 - (n - 1))%nat with (p + 1)%nat by lia. replace (n + p + 1 - 1 - n)%nat with p by lia. lra.
Qed.
(** A span s1 with the same piece value whose reflection contains 1 - x. *)
Lemma reflected_span x : nth p U 0 <= x <= nth n U 0 -> exists s s1,
  in_span (knots_of U) (n - 1) s x /\ (p <= s1 < n)%nat /\
  (forall i, piece (knots_of U) s p i x = piece (knots_of U) s1 p i x) /\
  in_span (knots_of (rflip U)) (n - 1) (n + p - 1 - s1) (1 - x).
Proof.
  intros Hx. pose proof HV as (HL & Hp & Hso & Hl). destruct (span_in_span p U n x HV Hx) as [Hin Hs]. set (s := find_span_linear p U n x) in *.
  assert (SP : nth s U 0 <= x <= nth (s + 1) U 0) by (destruct Hin as [[? H]|[-> H]]; unfold knots_of in H; lra).
  assert (REF : forall s1, (p <= s1 < n)%nat -> nth s1 U 0 <= x <= nth (s1 + 1) U 0 -> (s1 = p \/ nth s1 U 0 < x) ->
     in_span (knots_of (rflip U)) (n - 1) (n + p - 1 - s1) (1 - x)).
  { intros s1 Hs1 Hsx Hd. unfold in_span, knots_of.
    assert (E1 : nth (n + p - 1 - s1) (rflip U) 0 = 1 - nth (s1 + 1) U 0) by (rewrite rflip_nth by lia; rewrite HL; do 2 f_equal; lia).
    assert (E2 : nth (n + p - 1 - s1 + 1) (rflip U) 0 = 1 - nth s1 U 0) by (rewrite rflip_nth by lia; rewrite HL; do 2 f_equal; lia).
    destruct (Nat.eq_dec s1 p) as [->|Hne].
    - right. split; [lia|]. replace (n + p - 1 - p)%nat with (n - 1)%nat in * by lia. rewrite E1, E2. lra.
    - left. destruct Hd as [|Hd]; [contradiction|]. split; [lia|]. rewrite E1, E2. lra. }
  destruct (Rlt_le_dec (nth s U 0) x) as [Hlt|Hge].
  - exists s, s. split; [assumption|]. split; [assumption|]. split; [reflexivity|]. apply REF; auto.
  - assert (Ex : nth s U 0 = x) by lra. destruct (Nat.eq_dec s p) as [E|Hne].
    + exists s, s. split; [assumption|]. split; [assumption|]. split; [reflexivity|]. apply REF; auto.
    + assert (Hxn : x < nth n U 0). { rewrite <- Ex. apply Rle_lt_trans with (nth (n - 1) U 0); [apply Hso; lia|assumption]. }
      assert (Hxs : x < nth (s + 1) U 0).
      { destruct Hin as [[? H]|[E H]]; unfold knots_of in *; [lra|]. rewrite E. replace (n - 1 + 1)%nat with n by lia. assumption. }
      assert (Hxp : nth p U 0 < x). { apply Rlt_le_trans with (nth (p + 1) U 0); [assumption|]. rewrite <- Ex. apply Hso; lia. }
      destruct (occ_span x U s Hso) as (A & B & C); [lia|lra|intros i Hi; apply Rlt_le_trans with (nth (s + 1) U 0); [assumption|apply Hso; lia]|].
      pose proof (Hmult x ltac:(lra)) as Hm. set (m := occurrences x U) in *.
      assert (Hm1 : (1 <= m)%nat). { unfold m, occurrences. pose proof (proj1 (count_occ_In Req_EM_T U x)). rewrite <- Ex in *. specialize (H ltac:(apply nth_In; lia)). lia. }
      assert (Hsm : (p + m <= s)%nat). { destruct (le_dec (p + m) s); [assumption|]. exfalso. specialize (B p ltac:(lia)). lra. }
      exists s, (s - m)%nat. split; [assumption|]. split; [lia|]. split.
      * intros i. symmetry. replace s with (s - m + m)%nat at 2 by lia. apply piece_continuous; [apply C; lia| | |assumption].
        -- unfold knots_of. replace (s - m + m + 1)%nat with (s + 1)%nat by lia. assumption.
        -- intros j Hj. apply B. lia.
      * apply REF; [lia| |right; apply C; lia]. split; [apply Rlt_le, C; lia|]. rewrite B by lia. lra.
Qed.
Lemma bspline_reverse P j x : length P = n -> nth p U 0 <= x <= nth n U 0 ->
  bspline_coord p (rflip U) (rev P) j (1 - x) = bspline_coord p U P j x.
Proof.
  intros HP Hx. pose proof HV as (HL & Hp & Hso & Hl). destruct (reflected_span x Hx) as (s & s1 & Hin & Hs1 & Hpc & Hin').
  rewrite (bspline_piece p U P j x s) by (rewrite HP; assumption).
  rewrite (bspline_piece p (rflip U) (rev P) j (1 - x) (n + p - 1 - s1)) by (rewrite rev_length, HP; try assumption; apply rflip_valid).
  rewrite rev_length, HP. rewrite <- (Rsum_rev _ n). apply Rsum_ext. intros i Hi. rewrite Hpc. f_equal.
  - rewrite (piece_local _ (fun j => 1 - knots_of U (n + p - j)%nat)).
    + rewrite (piece_reflect (knots_of U) (n + p) s1 x) by lia. f_equal. lia.
    + intros k Hk. unfold knots_of. rewrite rflip_nth by lia. rewrite HL. do 2 f_equal. lia.
  - rewrite rev_nth by lia. rewrite HP. f_equal. f_equal. lia.
Qed.
End REV.

Lemma expand_app ks ms ks' ms' : length ks = length ms -> expand_knots (ks ++ ks') (ms ++ ms') = expand_knots ks ms ++ expand_knots ks' ms'.
Proof.
  revert ms. induction ks; intros [|m ms] H; try discriminate; cbn [app]; [reflexivity|]. rewrite !expand_cons, IHks by (cbn in H; lia). apply app_assoc.
Qed.
Lemma rev_repeat' {A} (x : A) m : rev (repeat x m) = repeat x m.
Proof. induction m; [reflexivity|]. cbn [repeat rev]. rewrite IHm. clear. induction m; [reflexivity|]. cbn. f_equal. assumption. Qed.
Lemma expand_rev ks : forall ms, length ks = length ms -> expand_knots (rev ks) (rev ms) = rev (expand_knots ks ms).
Proof.
  induction ks as [|k ks IH]; intros [|m ms] H; try discriminate; [reflexivity|]. cbn [rev].
  rewrite expand_app by (rewrite !rev_length; cbn in H; lia). rewrite IH by (cbn in H; lia). rewrite !expand_cons, rev_app_distr, rev_repeat'.
  f_equal. unfold expand_knots. cbn. apply app_nil_r.
Qed.
Lemma combine_rev {A B} (l : list A) : forall (l' : list B), length l = length l' -> combine (rev l) (rev l') = rev (combine l l').
Proof.
  induction l as [|a l IH]; intros [|b l'] H; try discriminate; [reflexivity|]. cbn [rev combine].
  assert (G : forall (x : list A) (y : list B) a b, length x = length y -> combine (x ++ [a]) (y ++ [b]) = combine x y ++ [(a, b)]).
  { clear. induction x; intros [|y0 y] a0 b0 H; try discriminate; [reflexivity|]. cbn. f_equal. apply IHx. cbn in H. lia. }
  rewrite G by (rewrite !rev_length; cbn in H; lia). rewrite IH by (cbn in H; lia). reflexivity.
Qed.
Lemma reverse_spec c : valid_curve c -> length (bc_knots c) = length (bc_mults c) -> hd 0 (bc_knots c) = 0 -> last (bc_knots c) 0 = 1 ->
  nth (bc_degree c) (knotvector c) 0 < nth (bc_degree c + 1) (knotvector c) 0 ->
  (forall x, nth (bc_degree c) (knotvector c) 0 < x < nth (length (bc_ctrlpts c)) (knotvector c) 0 -> (occurrences x (knotvector c) <= bc_degree c)%nat) ->
  exists c', get_reverse c = Ok c' /\ valid_curve c' /\ bc_degree c' = bc_degree c /\
    bc_ctrlpts c' = rev (bc_ctrlpts c) /\ bc_weights c' = bc_weights c /\
    forall x, in_domain c x -> in_domain c' (1 - x) /\
      curve_point c' (1 - x) = curve_point (mkbcurve (bc_degree c) (bc_ctrlpts c) (bc_mults c) (bc_knots c) (option_map (@rev R) (bc_weights c))) x.
Proof.
  intros HVC HLm H0 H1 Hf Hm. pose proof HVC as (HV & HD & HW). pose proof HV as (HL & Hp & Hso & Hl).
  set (n := length (bc_ctrlpts c)) in *. set (p := bc_degree c) in *. set (U := knotvector c) in *.
  unfold get_reverse, bcurve_new, standardize_knot_vector.
  assert (Hne : bc_knots c <> []) by (intros E; rewrite E in H1; cbn in H1; lra).
  assert (Eh : hd 0 (rev (bc_knots c)) = 1).
  { destruct (@exists_last _ _ Hne) as (l & x & E). rewrite E in H1 |- *. rewrite last_last in H1. subst x. rewrite rev_app_distr. reflexivity. }
  assert (El : last (rev (bc_knots c)) 0 = 0).
  { destruct (bc_knots c) as [|a t]; [contradiction|]. cbn [hd] in H0. subst a. cbn [rev]. apply last_last. }
  destruct (rev (bc_knots c)) as [|a t] eqn:ER; [cbn in Eh; lra|]. cbn [hd] in Eh. subst a. rewrite El.
  assert (Reqb (0 - 1) 0 = false) as -> by (destruct (Reqb (0 - 1) 0) eqn:X; [apply Reqb_spec in X; lra|reflexivity]).
  assert (EW : match bc_weights c with Some w => if any_nonzero w then Some w else None | None => None end = bc_weights c).
  { destruct (bc_weights c) as [w|]; [|reflexivity]. destruct HW as [HWl HWp]. apply keep_pos; [intros ->; cbn in HWl; lia|assumption]. }
  rewrite EW. eexists. split; [reflexivity|]. set (c' := mkbcurve _ _ _ _ _). cbn [bc_degree bc_ctrlpts bc_weights c'].
  assert (EK : knotvector c' = rflip U).
  { unfold knotvector. cbn [bc_knots bc_mults c']. rewrite expand_map, <- ER. rewrite expand_rev by assumption. unfold rflip. apply map_ext. intros x. field. }
  assert (EP : bc_ctrlpts c' = rev (bc_ctrlpts c)) by reflexivity.
  assert (ED : cdim c' = cdim c). { unfold cdim at 1. apply HD. rewrite EP. apply in_rev. apply nth_In. rewrite rev_length. fold n. lia. }
  assert (HV' : valid_kv p n (rflip U)) by (apply rflip_valid; assumption).
  split.
  { split; [|split].
    - rewrite EK, EP, rev_length. exact HV'.
    - rewrite ED, EP. intros P HP. apply HD. apply in_rev. assumption.
    - cbn [bc_weights c']. rewrite EP, rev_length. exact HW. }
  do 3 (split; [reflexivity|]). intros x Hx. unfold in_domain in *. rewrite EK, EP, rev_length. cbn [bc_degree c']. fold p U n in Hx |- *. split.
  - rewrite !rflip_nth by lia. rewrite HL. replace (n + p + 1 - 1 - p)%nat with n by lia. replace (n + p + 1 - 1 - n)%nat with p by lia. lra.
  - set (t0 := mkbcurve _ _ _ _ _). apply (same_points t0 c' (@rev point) (fun x => 1 - x) x).
    + split; [exact HV|]. split; [exact HD|]. cbn [bc_weights t0]. destruct (bc_weights c) as [w|]; [|trivial]. cbn [option_map]. destruct HW as [A B].
      split; [rewrite rev_length; exact A|]. intros y Hy. apply B. apply in_rev. assumption.
    + reflexivity.
    + exact ED.
    + reflexivity.
    + intros Q HQ. apply in_rev. assumption.
    + cbn [bc_weights bc_ctrlpts t0 c']. destruct (bc_weights c) as [w|]; [|reflexivity]. cbn [option_map]. exists w. split; [reflexivity|]. destruct HW as [HWl _].
      split; [rewrite rev_length; exact HWl|]. unfold ctrlptsw. rewrite <- map_rev, <- combine_rev, rev_involutive by (rewrite rev_length; fold n; congruence). reflexivity.
    + intros P HP j. rewrite EK. apply (bspline_reverse p n U); assumption.
Qed.
