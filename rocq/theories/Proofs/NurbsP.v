(** Knot spans, basis functions and curve evaluation. *)
From Coq Require Import Lia Lra Psatz.
From Verif.Model Require Import RBase Nurbs.
From Verif.Spec Require Import NurbsSpec.
From Verif.Proofs Require Import VecP.
Open Scope R_scope.

(** ** Sums *)
Lemma fold_right_Rplus_app l l' : fold_right Rplus 0 (l ++ l') = fold_right Rplus 0 l + fold_right Rplus 0 l'.
Proof. induction l; cbn; lra. Qed.
Lemma fold_left_Rplus l : forall a, fold_left Rplus l a = a + fold_right Rplus 0 l.
Proof. induction l; intros; cbn; [lra|]. rewrite IHl. lra. Qed.
Lemma sum_list_spec l : sum_list l = fold_right Rplus 0 l.
Proof. unfold sum_list. rewrite fold_left_Rplus. lra. Qed.
Lemma Rsum_0 f : Rsum f 0 = 0. Proof. reflexivity. Qed.
Lemma Rsum_S f n : Rsum f (S n) = Rsum f n + f n.
Proof. unfold Rsum. rewrite seq_S, map_app, fold_right_Rplus_app. cbn. lra. Qed.
Lemma Rsum_S_l f n : Rsum f (S n) = f 0%nat + Rsum (fun i => f (S i)) n.
Proof. unfold Rsum. cbn. rewrite <- seq_shift, map_map. reflexivity. Qed.
Lemma Rsum_ext f g n : (forall i, (i < n)%nat -> f i = g i) -> Rsum f n = Rsum g n.
Proof. induction n; intros; [reflexivity|]. rewrite !Rsum_S, IHn, H; auto. Qed.
Lemma Rsum_zero f n : (forall i, (i < n)%nat -> f i = 0) -> Rsum f n = 0.
Proof. induction n; intros; [reflexivity|]. rewrite Rsum_S, IHn, H; auto. lra. Qed.
Lemma Rsum_plus f g n : Rsum (fun i => f i + g i) n = Rsum f n + Rsum g n.
Proof. induction n; [rewrite !Rsum_0; ring|]. rewrite !Rsum_S, IHn. ring. Qed.
Lemma Rsum_scal c f n : Rsum (fun i => c * f i) n = c * Rsum f n.
Proof. induction n; [rewrite !Rsum_0; ring|]. rewrite !Rsum_S, IHn. ring. Qed.
Lemma Rsum_scal_r c f n : Rsum (fun i => f i * c) n = Rsum f n * c.
Proof. induction n; [rewrite !Rsum_0; ring|]. rewrite !Rsum_S, IHn. ring. Qed.
Lemma Rsum_nonneg f n : (forall i, (i < n)%nat -> 0 <= f i) -> 0 <= Rsum f n.
Proof. induction n; intros; rewrite ?Rsum_0, ?Rsum_S; [lra|]. pose proof (H n ltac:(lia)). assert (0 <= Rsum f n) by auto. lra. Qed.
Lemma Rsum_split f a b : Rsum f (a + b) = Rsum f a + Rsum (fun i => f (a + i)%nat) b.
Proof. induction b; [rewrite Nat.add_0_r, Rsum_0; lra|]. rewrite Nat.add_succ_r, !Rsum_S, IHb. lra. Qed.
(** Only the window [a, a + b) contributes. *)
Lemma Rsum_window f a b n : (a + b <= n)%nat -> (forall i, (i < n)%nat -> (i < a)%nat \/ (a + b <= i)%nat -> f i = 0) ->
  Rsum f n = Rsum (fun i => f (a + i)%nat) b.
Proof.
  intros Hn Hz. replace n with (a + (b + (n - a - b)))%nat by lia. rewrite !Rsum_split.
  rewrite (Rsum_zero f a), (Rsum_zero (fun i => f (a + (b + i))%nat)); [lra| |]; intros; apply Hz; lia.
Qed.
Lemma Rsum_one f n k : (k < n)%nat -> (forall i, (i < n)%nat -> i <> k -> f i = 0) -> Rsum f n = f k.
Proof. intros. rewrite (Rsum_window f k 1 n); [|lia|intros; apply H0; lia]. rewrite Rsum_S, Rsum_0, Nat.add_0_r. lra. Qed.
Lemma Rsum_others f n k : (forall i, (i < n)%nat -> 0 <= f i) -> Rsum f n = 1 -> (k < n)%nat -> f k = 1 ->
  forall i, (i < n)%nat -> i <> k -> f i = 0.
Proof.
  revert k; induction n; intros k Hp Hs Hk Hf i Hi Hne; [lia|].
  rewrite Rsum_S in Hs. assert (0 <= Rsum f n) by (apply Rsum_nonneg; auto). pose proof (Hp n ltac:(lia)).
  destruct (Nat.eq_dec k n) as [->|E].
  - assert (Z : Rsum f n = 0) by lra. assert (Hin : (i < n)%nat) by lia.
    clear - Z Hp Hin. revert i Hin Z. induction n; intros; [lia|]. rewrite Rsum_S in Z.
    assert (0 <= Rsum f n) by (apply Rsum_nonneg; auto). pose proof (Hp n ltac:(lia)).
    destruct (Nat.eq_dec i n) as [->|]; [lra|]. apply IHn; auto; try lia; try lra.
  - assert (Rsum f n = 1).
    { assert (f k <= Rsum f n).
      { clear - Hp Hk E. assert (k < n)%nat as Hk' by lia. clear Hk E. induction n; [lia|]. rewrite Rsum_S.
        destruct (Nat.eq_dec k n) as [->|].
        - assert (0 <= Rsum f n) by (apply Rsum_nonneg; auto). lra.
        - pose proof (Hp n ltac:(lia)). assert (f k <= Rsum f n) by (apply IHn; auto; lia). lra. }
      lra. }
    destruct (Nat.eq_dec i n) as [->|]; [lra|]. apply (IHn k); auto; lia.
Qed.

(** ** find_span_linear *)
Lemma span_loop_spec fuel U num u : forall span, (num - span <= fuel)%nat ->
  let r := span_loop fuel U num u span in
  (span <= r)%nat /\ (r <= Nat.max span num)%nat /\
  (forall i, (span <= i < r)%nat -> kn U i <= u) /\ ((num <= r)%nat \/ u < kn U r).
Proof.
  induction fuel; intros span Hf; cbn zeta; cbn [span_loop].
  - repeat split; try lia. 
  - destruct (Nat.ltb_spec span num); cbn [andb].
    + unfold Rleb. destruct (Rle_dec (kn U span) u).
      * destruct (IHfuel (S span) ltac:(lia)) as (A & B & C & D). repeat split; try lia; [|exact D].
        intros i Hi. destruct (Nat.eq_dec i span) as [->|]; [assumption|]. apply C. lia.
      * repeat split; try lia. right; lra.
    + repeat split; try lia.
Qed.
Lemma span_linear_spec p U n u : (p < n)%nat ->
  let s := find_span_linear p U n u in
  (p <= s < n)%nat /\ (forall i, (p < i <= s)%nat -> kn U i <= u) /\ ((s < n - 1)%nat -> u < kn U (s + 1)).
Proof.
  intros Hp. unfold find_span_linear. destruct (span_loop_spec n U n u (p + 1) ltac:(lia)) as (A & B & C & D).
  cbn zeta in *. remember (span_loop n U n u (p + 1)) as r. repeat split; try lia.
  - intros. apply C. lia.
  - intros. replace (r - 1 + 1)%nat with r by lia. destruct D; [lia|assumption].
Qed.

Definition mono (U : nat -> R) (m : nat) : Prop := forall i j, (i <= j)%nat -> (j <= m)%nat -> U i <= U j.
Lemma sorted_mono U : sorted_knots U -> mono (knots_of U) (length U - 1).
Proof. intros H i j Hij Hj. unfold knots_of. destruct U; [destruct i, j; cbn; lra|]. apply H; cbn in *; lia. Qed.

Lemma span_in_span p U n u : valid_kv p n U -> kn U p <= u <= kn U n ->
  in_span (knots_of U) (n - 1) (find_span_linear p U n u) u /\ (p <= find_span_linear p U n u < n)%nat.
Proof.
  intros (HL & Hp & Hs & Hlast) Hu. destruct (span_linear_spec p U n u Hp) as (A & B & C).
  cbn zeta in *. remember (find_span_linear p U n u) as s. split; [|assumption]. unfold in_span, knots_of.
  change (nth s U 0) with (kn U s).
  assert (kn U s <= u). { destruct (Nat.eq_dec p s) as [E|]; [rewrite <- E; lra|]. apply B. lia. }
  destruct (lt_dec s (n - 1)).
  - left. repeat split; try assumption. apply C. assumption.
  - right. assert (E : s = (n - 1)%nat) by lia. clear Heqs. subst s. replace (n - 1 + 1)%nat with n by lia.
    split; [reflexivity|]. split; [assumption|apply Hu].
Qed.
(** The span is the only one containing u. *)
Lemma in_span_unique U l i j u m : mono U m -> (l + 1 <= m)%nat -> U l < U (l + 1)%nat ->
  in_span U l i u -> in_span U l j u -> i = j.
Proof.
  intros Hm Hl Hlt [[Hi1 Hi2]|[-> Hi]] [[Hj1 Hj2]|[-> Hj]]; try reflexivity.
  - destruct (lt_eq_lt_dec i j) as [[H|H]|H]; [|assumption|].
    + assert (U (i + 1)%nat <= U j) by (apply Hm; lia). lra.
    + assert (U (j + 1)%nat <= U i) by (apply Hm; lia). lra.
  - assert (U (i + 1)%nat <= U l) by (apply Hm; lia). lra.
  - assert (U (j + 1)%nat <= U l) by (apply Hm; lia). lra.
Qed.

(** ** The polynomial piece of N_{i,p} on span s *)
Fixpoint piece (U : nat -> R) (s p i : nat) (u : R) : R :=
  match p with
  | O => if Nat.eq_dec i s then 1 else 0
  | S q => div0 (u - U i) (U (i + p)%nat - U i) * piece U s q i u
         + div0 (U (i + p + 1)%nat - u) (U (i + p + 1)%nat - U (i + 1)%nat) * piece U s q (i + 1)%nat u
  end.
Lemma div0_nz x y : y <> 0 -> div0 x y = x / y.
Proof. intros. unfold div0. destruct (Req_EM_T y 0); [contradiction|reflexivity]. Qed.

Lemma indicator_in U l s u m : mono U m -> (l + 1 <= m)%nat -> U l < U (l + 1)%nat -> in_span U l s u ->
  forall i, span_indicator U l i u = if Nat.eq_dec i s then 1 else 0.
Proof.
  intros Hm Hl Hlt Hs i.
  assert (Hin : span_indicator U l i u = 1 -> in_span U l i u).
  { unfold span_indicator, in_span. intros H.
    destruct (Rle_dec (U i) u); [|lra]. destruct (lt_dec i l).
    - destruct (Rlt_dec u (U (i + 1)%nat)); [|lra]. left. tauto.
    - destruct (Nat.eq_dec i l); [|lra]. subst. destruct (Rle_dec u (U (l + 1)%nat)); [|lra]. right. tauto. }
  assert (H01 : span_indicator U l i u = 1 \/ span_indicator U l i u = 0).
  { unfold span_indicator. destruct (Rle_dec (U i) u); [|tauto]. destruct (lt_dec i l); [destruct (Rlt_dec u (U (i + 1)%nat)); tauto|].
    destruct (Nat.eq_dec i l); [|tauto]. destruct (Rle_dec u (U (l + 1)%nat)); tauto. }
  destruct (Nat.eq_dec i s) as [->|Hne].
  - unfold span_indicator. destruct Hs as [[Hsl [H1 H2]]|[-> [H1 H2]]].
    + destruct (Rle_dec (U s) u); [|lra]. destruct (lt_dec s l); [|lia]. destruct (Rlt_dec u (U (s + 1)%nat)); [reflexivity|lra].
    + destruct (Rle_dec (U l) u); [|lra]. destruct (lt_dec l l); [lia|]. destruct (Nat.eq_dec l l); [|lia].
      destruct (Rle_dec u (U (l + 1)%nat)); [reflexivity|lra].
  - destruct H01 as [H|H]; [|assumption]. exfalso. apply Hne. eapply in_span_unique; eauto.
Qed.
Lemma coxdeboor_piece U l s u m : mono U m -> (l + 1 <= m)%nat -> U l < U (l + 1)%nat -> in_span U l s u ->
  forall p i, coxdeboor U l p i u = piece U s p i u.
Proof.
  intros Hm Hl Hlt Hs p. induction p; intros i.
  - cbn. eapply indicator_in; eauto.
  - cbn [coxdeboor piece]. rewrite !IHp. reflexivity.
Qed.

Lemma piece_supp U s u : forall p i, ~ (i <= s <= i + p)%nat -> piece U s p i u = 0.
Proof.
  induction p; intros i H; cbn [piece].
  - destruct (Nat.eq_dec i s); [lia|reflexivity].
  - rewrite !IHp by lia. lra.
Qed.
Lemma piece_den U s m p i u : mono U m -> U s < U (s + 1)%nat -> (i + p + 1 <= m)%nat ->
  piece U s p i u = 0 \/ ((i <= s <= i + p)%nat /\ U i < U (i + p + 1)%nat).
Proof.
  intros Hm Hs Hi.
  destruct (le_dec i s), (le_dec s (i + p)); try (left; apply piece_supp; lia).
  right. split; [lia|]. assert (U i <= U s) by (apply Hm; lia). assert (U (s + 1)%nat <= U (i + p + 1)%nat) by (apply Hm; lia). lra.
Qed.
Lemma piece_nonneg U s m u : mono U m -> U s < U (s + 1)%nat -> U s <= u <= U (s + 1)%nat ->
  forall p i, (i + p + 1 <= m)%nat -> 0 <= piece U s p i u.
Proof.
  intros Hm Hs Hu p. induction p; intros i Hi; cbn [piece].
  - destruct (Nat.eq_dec i s); lra.
  - assert (forall a b c, 0 <= a -> 0 <= b -> 0 <= c -> 0 <= div0 a b * c).
    { intros a b c Ha Hb Hc. unfold div0. destruct (Req_EM_T b 0); [lra|]. apply Rmult_le_pos; [|assumption].
      apply Rmult_le_pos; [assumption|]. left. apply Rinv_0_lt_compat. lra. }
    assert (A : 0 <= div0 (u - U i) (U (i + S p)%nat - U i) * piece U s p i u).
    { destruct (piece_den U s m p i u Hm Hs ltac:(lia)) as [->|[Hr _]]; [lra|].
      assert (U i <= U s) by (apply Hm; lia). assert (U i <= U (i + S p)%nat) by (apply Hm; lia).
      apply H; [lra|lra|]. apply IHp. lia. }
    assert (B : 0 <= div0 (U (i + S p + 1)%nat - u) (U (i + S p + 1)%nat - U (i + 1)%nat) * piece U s p (i + 1)%nat u).
    { destruct (piece_den U s m p (i + 1) u Hm Hs ltac:(lia)) as [->|[Hr _]]; [lra|].
      assert (U (s + 1)%nat <= U (i + S p + 1)%nat) by (apply Hm; lia). assert (U (i + 1)%nat <= U (i + S p + 1)%nat) by (apply Hm; lia).
      apply H; [lra|lra|]. apply IHp. lia. }
    lra.
Qed.

(** One step of the de Boor algorithm: a combination of degree p+1 functions is a combination of degree p ones. *)
Definition omega (U : nat -> R) (p i : nat) (u : R) : R := (u - U i) / (U (i + p)%nat - U i).
Definition prevP (P : nat -> R) (i : nat) : R := match i with O => 0 | S i' => P i' end.
Lemma piece_step_sum U s m u n p (P : nat -> R) : mono U m -> U s < U (s + 1)%nat -> (n + p + 1 <= m)%nat ->
  (p < s)%nat -> (s < n)%nat ->
  Rsum (fun i => P i * piece U s (S p) i u) n =
  Rsum (fun i => (omega U (S p) i u * P i + (1 - omega U (S p) i u) * prevP P i) * piece U s p i u) n.
Proof.
  intros Hm Hs Hn Hps Hsn.
  assert (E : forall i, (i < n)%nat -> P i * piece U s (S p) i u =
     P i * omega U (S p) i u * piece U s p i u + P i * (1 - omega U (S p) (i + 1) u) * piece U s p (i + 1) u).
  { intros i Hi. cbn [piece].
    assert (A : div0 (u - U i) (U (i + S p)%nat - U i) * piece U s p i u = omega U (S p) i u * piece U s p i u).
    { destruct (piece_den U s m p i u Hm Hs ltac:(lia)) as [->|[_ Hlt]]; [lra|]. rewrite div0_nz; [reflexivity|].
      replace (i + S p)%nat with (i + p + 1)%nat by lia. lra. }
    assert (B : div0 (U (i + S p + 1)%nat - u) (U (i + S p + 1)%nat - U (i + 1)%nat) * piece U s p (i + 1) u
                = (1 - omega U (S p) (i + 1) u) * piece U s p (i + 1) u).
    { destruct (piece_den U s m p (i + 1) u Hm Hs ltac:(lia)) as [->|[_ Hlt]]; [lra|]. rewrite div0_nz by
        (replace (i + S p + 1)%nat with (i + 1 + p + 1)%nat by lia; lra).
      unfold omega. replace (i + S p + 1)%nat with (i + 1 + p + 1)%nat by lia.
      replace (i + 1 + S p)%nat with (i + 1 + p + 1)%nat by lia. field_simplify_eq; [ring|lra]. }
    rewrite Rmult_plus_distr_l, A, B. ring. }
  rewrite (Rsum_ext _ _ n E), Rsum_plus.
  rewrite (Rsum_ext (fun i => (omega U (S p) i u * P i + (1 - omega U (S p) i u) * prevP P i) * piece U s p i u)
    (fun i => P i * omega U (S p) i u * piece U s p i u + prevP P i * (1 - omega U (S p) i u) * piece U s p i u)) by (intros; ring).
  rewrite Rsum_plus. f_equal.
  destruct n as [|n']; [lia|]. rewrite (Rsum_S_l (fun i => prevP P i * _ * _)). cbn [prevP].
  rewrite Rsum_S. rewrite (piece_supp U s u p (n' + 1)) by lia.
  replace (0 * (1 - omega U (S p) 0 u) * piece U s p 0 u) with 0 by ring.
  replace (P n' * (1 - omega U (S p) (n' + 1) u) * 0) with 0 by ring. rewrite Rplus_0_r, Rplus_0_l.
  apply Rsum_ext. intros i Hi. rewrite Nat.add_1_r. reflexivity.
Qed.
Lemma piece_sum U s m u : mono U m -> U s < U (s + 1)%nat -> forall p n, (n + p <= m)%nat -> (p <= s)%nat -> (s < n)%nat ->
  Rsum (fun i => piece U s p i u) n = 1.
Proof.
  intros Hm Hs p. induction p; intros n Hn Hps Hsn.
  - rewrite (Rsum_one _ n s Hsn); cbn; [destruct (Nat.eq_dec s s); [reflexivity|lia]|].
    intros i Hi Hne. destruct (Nat.eq_dec i s); [lia|reflexivity].
  - rewrite (Rsum_ext _ (fun i => 1 * piece U s (S p) i u)) by (intros; ring).
    rewrite (piece_step_sum U s m u n p (fun _ => 1) Hm Hs) by lia.
    transitivity (Rsum (fun i => piece U s p i u) n); [|apply IHp; lia]. apply Rsum_ext. intros i Hi.
    destruct i; cbn [prevP]; cbv beta; [|ring]. rewrite (piece_supp U s u p 0) by lia. ring.
Qed.

(** ** basis_function_c computes the pieces s-p..s *)
Lemma basis_inner_spec U m u d q : mono (knots_of U) m -> (q + d + 1 < m)%nat ->
  forall k r saved, (q + 2 * d + 2 <= m)%nat ->
  kn U (q + d + 1) < kn U (q + d + 1 + 1) -> (r + k = d + 1)%nat ->
  saved = div0 (u - kn U (q + r)) (kn U (q + r + S d) - kn U (q + r)) * piece (knots_of U) (q + d + 1) d (q + r) u ->
  basis_inner U (q + d + 1) u (S d) r saved (map (fun i => piece (knots_of U) (q + d + 1) d i u) (seq (q + 1 + r) k))
  = map (fun i => piece (knots_of U) (q + d + 1) (S d) i u) (seq (q + r) (k + 1)).
Proof.
  intros Hm Hq k. induction k; intros r saved Hlen Hs Hrk Hsaved.
  - cbn [seq map basis_inner]. cbn [Nat.add seq map]. f_equal. cbn [piece].
    rewrite (piece_supp (knots_of U) (q + d + 1) u d (q + r + 1)) by lia. rewrite Hsaved. unfold knots_of, kn. ring.
  - cbn [seq map basis_inner]. cbn [Nat.add]. cbn [seq map].
    assert (Hden : bright U (q + d + 1) u (r + 1) + bleft U (q + d + 1) u (S d - r) = kn U (q + r + S d + 1) - kn U (q + r + 1)).
    { unfold bright, bleft. replace (q + d + 1 + (r + 1))%nat with (q + r + S d + 1)%nat by lia.
      replace (q + d + 1 + 1 - (S d - r))%nat with (q + r + 1)%nat by lia. ring. }
    assert (Hpos : kn U (q + r + 1) < kn U (q + r + S d + 1)).
    { assert (kn U (q + r + 1) <= kn U (q + d + 1)) by (apply (Hm (q + r + 1)%nat); lia).
      assert (kn U (q + d + 1 + 1) <= kn U (q + r + S d + 1)) by (apply (Hm (q + d + 1 + 1)%nat); lia). lra. }
    rewrite Hden.
    replace (q + 1 + r)%nat with (q + r + 1)%nat by lia.
    apply (f_equal2 cons).
    + cbn [piece]. rewrite Hsaved. unfold bright.
      replace (q + d + 1 + (r + 1))%nat with (q + r + S d + 1)%nat by lia.
      rewrite (div0_nz (knots_of U (q + r + S d + 1)%nat - u)) by (unfold knots_of; unfold kn in Hpos; lra).
      unfold knots_of, kn. unfold Rdiv. ring.
    + specialize (IHk (S r) (bleft U (q + d + 1) u (S d - r) * (piece (knots_of U) (q + d + 1) d (q + r + 1) u / (kn U (q + r + S d + 1) - kn U (q + r + 1))))
                    Hlen Hs ltac:(lia)).
      replace (q + 1 + S r)%nat with (S (q + r + 1)) in IHk by lia.
      replace (r + 1)%nat with (S r) at 1 by lia. rewrite IHk.
      * f_equal. f_equal. lia.
      * unfold bleft. replace (q + d + 1 + 1 - (S d - r))%nat with (q + S r)%nat by lia.
        replace (q + r + 1)%nat with (q + S r)%nat by lia. replace (q + r + S d + 1)%nat with (q + S r + S d)%nat by lia.
        rewrite div0_nz. 2:{ replace (q + S r + S d)%nat with (q + r + S d + 1)%nat by lia. replace (q + S r)%nat with (q + r + 1)%nat by lia. lra. }
        unfold Rdiv; ring.
Qed.
Lemma basis_function_spec U m s u : mono (knots_of U) m -> kn U s < kn U (s + 1) ->
  forall p, (p <= s)%nat -> (s + p <= m)%nat -> (s < m)%nat ->
  basis_function p U s u = map (fun i => piece (knots_of U) s p i u) (seq (s - p) (p + 1)).
Proof.
  intros Hm Hs p. induction p; intros Hp Hlen Hsm.
  - cbn. rewrite Nat.sub_0_r. destruct (Nat.eq_dec s s); [reflexivity|lia].
  - cbn [basis_function]. rewrite IHp by lia.
    pose proof (basis_inner_spec U m u p (s - S p) Hm ltac:(lia) (p + 1) 0 0 ltac:(lia)) as L.
    replace (s - S p + p + 1)%nat with s in L by lia. replace (s - S p + 1 + 0)%nat with (s - p)%nat in L by lia.
    replace (s - S p + 0)%nat with (s - S p)%nat in L by lia. rewrite L; auto; try lia.
    + f_equal. f_equal. lia.
    + rewrite piece_supp by lia. ring.
Qed.
Lemma basis_function_length p : forall U s u, length (basis_function p U s u) = (p + 1)%nat.
Proof.
  assert (forall N U s u j r saved, length (basis_inner U s u j r saved N) = (length N + 1)%nat)
    by (induction N; intros; cbn; [reflexivity|rewrite IHN; reflexivity]).
  induction p; intros; cbn; [reflexivity|]. rewrite H, IHp. lia.
Qed.

(** ** Evaluation = textbook curve *)
Lemma valid_facts p n U u : valid_kv p n U -> kn U p <= u <= kn U n ->
  let s := find_span_linear p U n u in
  mono (knots_of U) (n + p) /\ (p <= s < n)%nat /\ kn U s < kn U (s + 1) /\ kn U s <= u <= kn U (s + 1) /\
  in_span (knots_of U) (n - 1) s u /\ (forall q i, coxdeboor (knots_of U) (n - 1) q i u = piece (knots_of U) s q i u).
Proof.
  intros HV Hu. destruct (span_in_span p U n u HV Hu) as [Hin Hs]. destruct HV as (HL & Hp & Hso & Hlast).
  cbn zeta. assert (Hm : mono (knots_of U) (n + p)). { pose proof (sorted_mono U Hso) as M. rewrite HL in M. replace (n + p + 1 - 1)%nat with (n + p)%nat in M by lia. exact M. }
  assert (HU : kn U (find_span_linear p U n u) < kn U (find_span_linear p U n u + 1) /\ kn U (find_span_linear p U n u) <= u <= kn U (find_span_linear p U n u + 1)).
  { destruct Hin as [[H1 H2]|[H1 H2]]; unfold knots_of in H2; unfold kn in *; [split; lra|].
    rewrite H1. replace (n - 1 + 1)%nat with n in * by lia. split; [exact Hlast|exact H2]. }
  repeat split; try tauto; try lia; try lra.
  intros. apply (coxdeboor_piece (knots_of U) (n - 1) _ u (n + p)); auto; try lia.
  unfold knots_of. replace (n - 1 + 1)%nat with n by lia. exact Hlast.
Qed.

Lemma seq_map_nth {A} (f : nat -> A) a k i d : (i < k)%nat -> nth i (map f (seq a k)) d = f (a + i)%nat.
Proof. intros. rewrite (nth_indep _ d (f 0%nat)) by (rewrite map_length, seq_length; lia). rewrite map_nth, seq_nth by lia. reflexivity. Qed.

Lemma eval_point_spec p U P dim u : valid_kv p (length P) U -> kn U p <= u <= kn U (length P) ->
  eval_point p U P dim u = map (fun j => bspline_coord p U P j u) (seq 0 dim).
Proof.
  intros HV Hu. destruct (valid_facts p (length P) U u HV Hu) as (Hm & Hs & Hlt & Hin & _ & HC).
  unfold eval_point. set (s := find_span_linear p U (length P) u) in *. apply map_ext. intros j.
  unfold eval_coord, bspline_coord. rewrite sum_list_spec.
  change (fold_right Rplus 0 (map ?f (seq 0 (p + 1)))) with (Rsum f (p + 1)).
  rewrite (Rsum_window _ (s - p) (p + 1) (length P)).
  - apply Rsum_ext. intros i Hi. rewrite (basis_function_spec U (length P + p) s u Hm Hlt p) by lia.
    rewrite seq_map_nth by lia. rewrite HC. reflexivity.
  - lia.
  - intros i Hi Hout. rewrite HC, piece_supp by lia. ring.
Qed.
