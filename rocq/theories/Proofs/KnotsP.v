(** Multiplicities and get_knots_and_multiplicities. *)
From Coq Require Import Lia Lra Psatz Permutation.
From Verif.Model Require Import RBase Nurbs.
From Verif.Spec Require Import NurbsSpec.
From Verif.Proofs Require Import VecP NurbsP NurbsP2 NurbsP3 BoehmP InsertP.
Open Scope R_scope.

Lemma eps15_pos : 0 < eps15.
Proof. unfold eps15. apply Rinv_0_lt_compat. lra. Qed.

Lemma find_multiplicity_occ u U : separated_from eps15 u U -> find_multiplicity u U = occurrences u U.
Proof.
  unfold find_multiplicity, find_multiplicity_tol, occurrences. induction U as [|x t IH]; intros H; [reflexivity|].
  assert (Ht : separated_from eps15 u t) by (intros k Hk; apply H; right; assumption).
  cbn. specialize (IH Ht). destruct (H x (or_introl eq_refl)) as [-> | Hx].
  - destruct (Req_EM_T u u) as [_|]; [|contradiction].
    replace (u - u) with 0 by ring. rewrite Rabs_R0.
    destruct (Rleb 0 eps15) eqn:E; [cbn; f_equal; exact IH|]. apply Rleb_false in E. pose proof eps15_pos. lra.
  - destruct (Req_EM_T x u) as [->|].
    + replace (u - u) with 0 in Hx by ring. rewrite Rabs_R0 in Hx. pose proof eps15_pos. lra.
    + destruct (Rleb (Rabs (u - x)) eps15) eqn:E; [apply Rleb_spec in E; lra|exact IH].
Qed.

(** Number of occurrences at the end of a run. *)
Lemma occ_app u l l' : occurrences u (l ++ l') = (occurrences u l + occurrences u l')%nat.
Proof. unfold occurrences. apply count_occ_app. Qed.
Lemma occ_none u l : (forall x, In x l -> x <> u) -> occurrences u l = 0%nat.
Proof. intros H. unfold occurrences. apply count_occ_not_In. intros Hin. apply (H u Hin). reflexivity. Qed.
Lemma occ_suffix u : forall m l, length l = m -> sorted_knots l -> (forall x, In x l -> x <= u) ->
  (occurrences u l <= length l)%nat /\ (forall i, (length l - occurrences u l <= i < length l)%nat -> nth i l 0 = u) /\
  (forall i, (i < length l - occurrences u l)%nat -> nth i l 0 < u).
Proof.
  induction m; intros l Hl Hs Hu.
  - destruct l; [|discriminate]. cbn. repeat split; intros; lia.
  - destruct (@exists_last _ l) as (l' & x & ->); [intros ->; discriminate|].
    rewrite app_length in *. cbn in Hl. assert (Hl' : length l' = m) by lia.
    assert (Hs' : sorted_knots l').
    { intros i j Hij Hj. specialize (Hs i j Hij). rewrite app_length in Hs. rewrite !app_nth1 in Hs by lia. apply Hs. lia. }
    destruct (IHm l' Hl' Hs') as (A & B & C); [intros y Hy; apply Hu, in_or_app; auto|].
    rewrite occ_app. cbn [length]. destruct (Req_EM_T x u) as [->|Hne].
    + assert (E1 : occurrences u [u] = 1%nat) by (unfold occurrences; cbn; destruct (Req_EM_T u u); [reflexivity|contradiction]).
      rewrite E1. split; [lia|]. split.
      * intros i Hi. destruct (Nat.eq_dec i m) as [->|]; [rewrite app_nth2, Hl', Nat.sub_diag by lia; reflexivity|].
        rewrite app_nth1 by lia. apply B. lia.
      * intros i Hi. rewrite app_nth1 by lia. apply C. lia.
    + assert (x < u). { specialize (Hu x). destruct (Hu ltac:(apply in_or_app; right; left; reflexivity)); [assumption|contradiction]. }
      assert (occurrences u l' = 0%nat) as E0.
      { apply occ_none. intros y Hy Heq. subst y. destruct (In_nth l' u 0 Hy) as (i & Hi & En).
        specialize (Hs i m). rewrite app_length in Hs. rewrite app_nth1, app_nth2 in Hs by lia. rewrite Hl', Nat.sub_diag in Hs. cbn in Hs.
        specialize (Hs ltac:(lia) ltac:(lia)). lra. }
      assert (E1 : occurrences u [x] = 0%nat) by (apply occ_none; intros y [<-|[]]; exact Hne).
      rewrite E1, E0 in *. split; [lia|]. split; [intros; lia|]. intros i Hi.
      destruct (Nat.eq_dec i m) as [->|]; [rewrite app_nth2, Hl', Nat.sub_diag by lia; exact H|]. rewrite app_nth1 by lia. apply C. lia.
Qed.
Lemma occ_span u U k : sorted_knots U -> (k < length U)%nat -> nth k U 0 <= u -> (forall i, (k < i < length U)%nat -> u < nth i U 0) ->
  (occurrences u U <= k + 1)%nat /\ (forall i, (k + 1 - occurrences u U <= i <= k)%nat -> nth i U 0 = u) /\
  (forall i, (i < k + 1 - occurrences u U)%nat -> nth i U 0 < u).
Proof.
  intros Hs Hk Hku Hup.
  assert (L : length (firstn (k + 1) U) = (k + 1)%nat) by (rewrite firstn_length; lia).
  assert (E : occurrences u U = occurrences u (firstn (k + 1) U)).
  { rewrite <- (firstn_skipn (k + 1) U) at 1. rewrite occ_app. rewrite (occ_none u (skipn (k + 1) U)); [lia|].
    intros x Hx Heq. subst x. destruct (In_nth _ _ 0 Hx) as (i & Hi & En). rewrite skipn_length in Hi. rewrite skipn_nth in En.
    specialize (Hup (k + 1 + i)%nat ltac:(lia)). lra. }
  destruct (occ_suffix u (k + 1) (firstn (k + 1) U)) as (A & B & C); [exact L| | |].
  - intros i j Hij Hj. rewrite L in Hj. rewrite !firstn_nth by lia. apply Hs; lia.
  - intros x Hx. destruct (In_nth _ _ 0 Hx) as (i & Hi & En). rewrite L in Hi. rewrite firstn_nth in En by lia. rewrite <- En.
    apply Rle_trans with (nth k U 0); [apply Hs; lia|assumption].
  - rewrite L in *. rewrite E. split; [exact A|]. split.
    + intros i Hi. rewrite <- (firstn_nth U (k + 1)) by lia. apply B. lia.
    + intros i Hi. rewrite <- (firstn_nth U (k + 1)) by lia. apply C. lia.
Qed.

(** ** np_unique *)
Inductive incr : list R -> Prop :=
| incr_nil : incr []
| incr_cons x l : incr l -> (forall y, In y l -> x < y) -> incr (x :: l).
Lemma incr_increasing l : incr l -> increasing l.
Proof.
  induction 1 as [|x l Hl IH Hx]; intros i j Hij Hj; [cbn in Hj; lia|]. destruct j as [|j]; [lia|]. cbn in Hj.
  destruct i as [|i]; cbn; [apply Hx, nth_In; lia|]. apply IH; lia.
Qed.
Lemma isu_in x l y : In y (insert_sorted_unique x l) <-> y = x \/ In y l.
Proof.
  induction l as [|z t IH]; cbn; [intuition|]. destruct (Rltb x z) eqn:E; [cbn; intuition|].
  destruct (Reqb x z) eqn:E2.
  - apply Reqb_spec in E2. subst z. cbn. intuition.
  - cbn. rewrite IH. intuition.
Qed.
Lemma isu_incr x l : incr l -> incr (insert_sorted_unique x l).
Proof.
  induction 1 as [|z t Ht IH Hz]; cbn; [constructor; [constructor|intros y []]|].
  destruct (Rltb x z) eqn:E.
  - apply Rltb_spec in E. constructor; [constructor; assumption|]. intros y [<- |Hy]; [assumption|]. specialize (Hz y Hy). lra.
  - apply Rltb_false in E. destruct (Reqb x z) eqn:E2; [constructor; assumption|].
    constructor; [assumption|]. intros y Hy. apply isu_in in Hy. destruct Hy as [-> |Hy]; [|auto].
    assert (x <> z) by (intros ->; assert (Reqb z z = true) by (apply Reqb_spec; reflexivity); congruence). lra.
Qed.
Lemma np_unique_incr l : incr (np_unique l).
Proof. induction l; cbn; [constructor|]. apply isu_incr. assumption. Qed.
Lemma np_unique_in l x : In x (np_unique l) <-> In x l.
Proof. induction l; cbn; [tauto|]. rewrite isu_in, IHl. intuition. Qed.

(** ** Expansion gives back the sorted list *)
Lemma expand_cons k ks m ms : expand_knots (k :: ks) (m :: ms) = repeat k m ++ expand_knots ks ms.
Proof. reflexivity. Qed.
Lemma expand_occ ks f u : incr ks -> occurrences u (expand_knots ks (map f ks)) = if in_dec Req_EM_T u ks then f u else 0%nat.
Proof.
  assert (R1 : forall u m, occurrences u (repeat u m) = m).
  { unfold occurrences. induction m; cbn; [reflexivity|]. destruct (Req_EM_T u0 u0); [f_equal; assumption|contradiction]. }
  assert (R2 : forall u v m, v <> u -> occurrences u (repeat v m) = 0%nat).
  { intros v' v m Hv. apply occ_none. intros x Hx. apply repeat_spec in Hx. congruence. }
  induction 1 as [|x l Hl IH Hx]; [destruct (in_dec Req_EM_T u []); [contradiction|reflexivity]|].
  cbn [map]. rewrite expand_cons, occ_app, IH. destruct (Req_EM_T x u) as [->|Hne].
  - rewrite R1. destruct (in_dec Req_EM_T u l) as [Hi|]; [specialize (Hx u Hi); lra|].
    destruct (in_dec Req_EM_T u (u :: l)) as [|Hn]; [lia|]. exfalso; apply Hn; left; reflexivity.
  - rewrite R2 by assumption. destruct (in_dec Req_EM_T u l), (in_dec Req_EM_T u (x :: l)) as [Hi|Hn]; auto.
    + exfalso; apply Hn; right; assumption.
    + destruct Hi; [contradiction|contradiction].
Qed.
Lemma perm_occ (l l' : list R) : (forall u, occurrences u l = occurrences u l') -> Permutation l l'.
Proof. intros H. apply (Permutation_count_occ Req_EM_T). exact H. Qed.

Inductive nondec : list R -> Prop :=
| nd_nil : nondec []
| nd_cons x l : nondec l -> (forall y, In y l -> x <= y) -> nondec (x :: l).
Lemma sorted_nondec l : sorted_knots l -> nondec l.
Proof.
  induction l as [|x t IH]; intros H; constructor.
  - apply IH. intros i j Hij Hj. apply (H (S i) (S j)); cbn; lia.
  - intros y Hy. destruct (In_nth t y 0 Hy) as (i & Hi & <-). apply (H 0%nat (S i)); cbn; lia.
Qed.
Lemma nondec_sorted l : nondec l -> sorted_knots l.
Proof.
  induction 1 as [|x t Ht IH Hx]; intros i j Hij Hj; [cbn in Hj; lia|]. destruct j as [|j], i as [|i]; cbn in *; try lia; try lra.
  - apply Hx, nth_In; lia.
  - apply IH; lia.
Qed.
Lemma nondec_perm_eq l : nondec l -> forall l', nondec l' -> Permutation l l' -> l = l'.
Proof.
  induction 1 as [|x t Ht IH Hx]; intros l' Hl' HP.
  - apply Permutation_nil in HP. auto.
  - destruct l' as [|y t']; [apply Permutation_sym, Permutation_nil in HP; discriminate|].
    inversion Hl' as [|? ? Ht' Hy]; subst.
    assert (x = y).
    { assert (In x (y :: t')) as [?|Hin] by (apply (Permutation_in _ HP); left; reflexivity); [auto|].
      assert (In y (x :: t)) as [?|Hin'] by (apply (Permutation_in _ (Permutation_sym HP)); left; reflexivity); [auto|].
      specialize (Hx _ Hin'). specialize (Hy _ Hin). lra. }
    subst y. f_equal. apply IH; [assumption|]. eapply Permutation_cons_inv; eassumption.
Qed.
Lemma nondec_app l l' : nondec l -> nondec l' -> (forall x y, In x l -> In y l' -> x <= y) -> nondec (l ++ l').
Proof.
  induction 1 as [|x t Ht IH Hx]; intros Hl' H; cbn; [assumption|]. constructor.
  - apply IH; auto. intros; apply H; auto. right; assumption.
  - intros y Hy. apply in_app_or in Hy as [|]; auto. apply H; auto. left; reflexivity.
Qed.
Lemma nondec_repeat x m : nondec (repeat x m).
Proof. induction m; constructor; auto. intros y Hy. apply repeat_spec in Hy. lra. Qed.
Lemma expand_in ks ms x : In x (expand_knots ks ms) -> In x ks.
Proof.
  revert ms; induction ks as [|k t IH]; intros [|m ms] H; cbn in H; try contradiction.
  apply in_app_or in H as [H|H]; [left; symmetry; eapply repeat_spec; eassumption|right; eapply IH; exact H].
Qed.
Lemma expand_nondec ks : incr ks -> forall ms, nondec (expand_knots ks ms).
Proof.
  induction 1 as [|k t Ht IH Hk]; intros [|m ms]; try constructor. rewrite expand_cons.
  apply nondec_app; [apply nondec_repeat|apply IH|]. intros x y Hx Hy. apply repeat_spec in Hx. subst x. apply expand_in in Hy. specialize (Hk y Hy). lra.
Qed.

(** C33 *)
Lemma knots_mults_spec U : separated eps15 U ->
  let '(knots, mults) := get_knots_and_multiplicities U in
  increasing knots /\ (forall x, In x knots <-> In x U) /\ length mults = length knots /\
  (forall i, (i < length knots)%nat -> nth i mults 0%nat = occurrences (nth i knots 0) U /\ (0 < nth i mults 0)%nat) /\
  Permutation (expand_knots knots mults) U /\ sorted_knots (expand_knots knots mults).
Proof.
  intros HS. unfold get_knots_and_multiplicities.
  assert (EM : map (fun k => find_multiplicity k U) (np_unique U) = map (fun k => occurrences k U) (np_unique U)).
  { apply map_ext_in. intros k Hk. apply find_multiplicity_occ. apply HS. apply np_unique_in. assumption. }
  rewrite EM. split; [apply incr_increasing, np_unique_incr|]. split; [apply np_unique_in|]. split; [apply map_length|].
  split; [|split].
  - intros i Hi. assert (E : nth i (map (fun k => occurrences k U) (np_unique U)) 0%nat = occurrences (nth i (np_unique U) 0) U).
    { rewrite (nth_indep _ 0%nat (occurrences 0 U)) by (rewrite map_length; assumption). apply (map_nth (fun k => occurrences k U)). }
    split; [exact E|]. rewrite E. unfold occurrences. apply (count_occ_In Req_EM_T). apply np_unique_in. apply nth_In. assumption.
  - apply perm_occ. intros u. rewrite (expand_occ _ (fun k => occurrences k U)) by apply np_unique_incr.
    destruct (in_dec Req_EM_T u (np_unique U)) as [|Hn]; [reflexivity|]. symmetry. apply occ_none. intros x Hx ->. apply Hn, np_unique_in. assumption.
  - apply nondec_sorted, expand_nondec, np_unique_incr.
Qed.
Lemma knots_mults_sorted U : separated eps15 U -> sorted_knots U ->
  expand_knots (fst (get_knots_and_multiplicities U)) (snd (get_knots_and_multiplicities U)) = U.
Proof.
  intros HS Hso. pose proof (knots_mults_spec U HS) as H. destruct (get_knots_and_multiplicities U) as [ks ms]. cbn.
  destruct H as (_ & _ & _ & _ & HP & Hs). apply nondec_perm_eq; [apply sorted_nondec, Hs|apply sorted_nondec, Hso|exact HP].
Qed.

(** Knots closer than 1e-15 are counted twice. *)
Lemma knots_mults_overcount : exists U, sorted_knots U /\
  length (expand_knots (fst (get_knots_and_multiplicities U)) (snd (get_knots_and_multiplicities U))) <> length U.
Proof.
  exists [0; eps15]. pose proof eps15_pos as He. split.
  - intros i j Hij Hj. cbn in Hj. destruct i as [|[|i]], j as [|[|j]]; cbn; lra || lia.
  - unfold get_knots_and_multiplicities. cbn [fst snd np_unique fold_right insert_sorted_unique].
    destruct (Rltb 0 eps15) eqn:E; [|apply Rltb_false in E; lra]. cbn [map].
    assert (M0 : find_multiplicity 0 [0; eps15] = 2%nat).
    { unfold find_multiplicity, find_multiplicity_tol. cbn.
      replace (Rabs (0 - 0)) with 0 by (rewrite Rminus_0_r, Rabs_R0; reflexivity).
      replace (Rabs (0 - eps15)) with eps15 by (rewrite Rminus_0_l, Rabs_Ropp, Rabs_pos_eq; lra).
      destruct (Rleb 0 eps15) eqn:E0; [|apply Rleb_false in E0; lra]. destruct (Rleb eps15 eps15) eqn:E1; [|apply Rleb_false in E1; lra]. reflexivity. }
    assert (M1 : find_multiplicity eps15 [0; eps15] = 2%nat).
    { unfold find_multiplicity, find_multiplicity_tol. cbn.
      replace (Rabs (eps15 - 0)) with eps15 by (rewrite Rminus_0_r, Rabs_pos_eq; lra).
      replace (Rabs (eps15 - eps15)) with 0 by (rewrite Rminus_diag_eq, Rabs_R0; reflexivity).
      destruct (Rleb 0 eps15) eqn:E0; [|apply Rleb_false in E0; lra]. destruct (Rleb eps15 eps15) eqn:E1; [|apply Rleb_false in E1; lra]. reflexivity. }
    rewrite M0, M1. cbn. discriminate.
Qed.
