(** Boehm's knot insertion: the basis identity and its consequence for curves (function-level). *)
From Coq Require Import Lia Lra Psatz.
From Verif.Model Require Import RBase Nurbs.
From Verif.Spec Require Import NurbsSpec.
From Verif.Proofs Require Import VecP NurbsP NurbsP2 NurbsP3.
Open Scope R_scope.

(** One knot [b] inserted after position k. *)
Definition ins (U : nat -> R) (k : nat) (b : R) (i : nat) : R :=
  if (i <=? k)%nat then U i else if (i =? k + 1)%nat then b else U (i - 1)%nat.
Definition alpha (U : nat -> R) (k : nat) (b : R) (p i : nat) : R :=
  if (i + p <=? k)%nat then 1 else if (k <? i)%nat then 0 else (b - U i) / (U (i + p)%nat - U i).
Definition old_span (k s : nat) : nat := if (s <=? k)%nat then s else (s - 1)%nat.

Lemma ins_le U k b i : (i <= k)%nat -> ins U k b i = U i.
Proof. intros. unfold ins. destruct (Nat.leb_spec i k); [reflexivity|lia]. Qed.
Lemma ins_eq U k b i : (i = k + 1)%nat -> ins U k b i = b.
Proof. intros. unfold ins. destruct (Nat.leb_spec i k); [lia|]. destruct (Nat.eqb_spec i (k + 1)); [reflexivity|lia]. Qed.
Lemma ins_gt U k b i j : (k + 1 < i)%nat -> (j = i - 1)%nat -> ins U k b i = U j.
Proof. intros. subst. unfold ins. destruct (Nat.leb_spec i k); [lia|]. destruct (Nat.eqb_spec i (k + 1)); [lia|reflexivity]. Qed.
Lemma alpha_1 U k b p i : (i + p <= k)%nat -> alpha U k b p i = 1.
Proof. intros. unfold alpha. destruct (Nat.leb_spec (i + p) k); [reflexivity|lia]. Qed.
Lemma alpha_0 U k b p i : (k < i)%nat -> alpha U k b p i = 0.
Proof. intros. unfold alpha. destruct (Nat.leb_spec (i + p) k); [lia|]. destruct (Nat.ltb_spec k i); [reflexivity|lia]. Qed.
Lemma alpha_m U k b p i : (k < i + p)%nat -> (i <= k)%nat -> alpha U k b p i = (b - U i) / (U (i + p)%nat - U i).
Proof. intros. unfold alpha. destruct (Nat.leb_spec (i + p) k); [lia|]. destruct (Nat.ltb_spec k i); [lia|reflexivity]. Qed.

Section Boehm.
Variables (U : nat -> R) (m k : nat) (b : R).
Hypothesis Hm : mono U m.
Hypothesis Hk : (k + 1 <= m)%nat.
Hypothesis Hb : U k <= b < U (k + 1)%nat.
Let V := ins U k b.

Lemma ins_mono : mono V (m + 1).
Proof.
  intros i j Hij Hj. unfold V.
  destruct (lt_eq_lt_dec j (k + 1)) as [[J|J]|J].
  - rewrite !ins_le by lia. apply Hm; lia.
  - rewrite (ins_eq U k b j) by lia. destruct (Nat.eq_dec i (k + 1)); [rewrite ins_eq by lia; lra|].
    rewrite ins_le by lia. assert (U i <= U k) by (apply Hm; lia). lra.
  - rewrite (ins_gt U k b j (j - 1)) by lia. assert (U (k + 1)%nat <= U (j - 1)%nat) by (apply Hm; lia).
    destruct (lt_eq_lt_dec i (k + 1)) as [[I|I]|I].
    + rewrite ins_le by lia. apply Hm; lia.
    + rewrite ins_eq by lia. lra.
    + rewrite (ins_gt U k b i (i - 1)) by lia. apply Hm; lia.
Qed.

Variable s : nat.
Hypothesis Hs : V s < V (s + 1)%nat.
Let t := old_span k s.

Lemma old_span_pos : (s + 1 <= m + 1)%nat -> U t < U (t + 1)%nat.
Proof.
  intros Hsm. unfold t, old_span, V in *. destruct (Nat.leb_spec s k).
  - destruct (Nat.eq_dec s k) as [->|]; [lra|]. rewrite !ins_le in Hs by lia. assumption.
  - destruct (Nat.eq_dec s (k + 1)) as [->|].
    + replace (k + 1 - 1)%nat with k by lia. lra.
    + rewrite (ins_gt U k b s (s - 1)), (ins_gt U k b (s + 1) s) in Hs by lia. replace (s - 1 + 1)%nat with s by lia. assumption.
Qed.

Lemma div0_den a c d : c = d -> div0 a c = div0 a d. Proof. intros ->; reflexivity. Qed.

(** Coefficient of the piece (p, i) of V. *)
Lemma coef_left x p i : (i + p + 1 <= m)%nat -> V i < V (i + p + 1)%nat ->
  div0 (x - U i) (U (i + S p)%nat - U i) * alpha U k b p i
  = alpha U k b (S p) i * div0 (x - V i) (V (i + S p)%nat - V i).
Proof.
  intros Hi HV. unfold V in *. replace (i + p + 1)%nat with (i + S p)%nat in HV by lia.
  destruct (le_dec (i + S p) k).
  - rewrite !alpha_1 by lia. rewrite !ins_le by lia. ring.
  - destruct (Nat.eq_dec (i + p) k) as [E|E].
    + rewrite (alpha_1 U k b p) by lia. rewrite (alpha_m U k b (S p)) by lia.
      rewrite (ins_le U k b i) in * by lia. rewrite (ins_eq U k b (i + S p)) in * by lia.
      assert (U (i + S p)%nat = U (k + 1)%nat) as EE by (f_equal; lia). rewrite EE in *.
      rewrite !div0_nz by lra. field. split; lra.
    + destruct (le_dec i k).
      * rewrite !alpha_m by lia. rewrite (ins_le U k b i) in * by lia. rewrite (ins_gt U k b (i + S p) (i + p)) in * by lia.
        assert (U (i + p)%nat <= U (i + S p)%nat) by (apply Hm; lia).
        rewrite !div0_nz by lra. field. split; lra.
      * rewrite !alpha_0 by lia. ring.
Qed.
Lemma coef_right x p i : (i + p + 2 <= m)%nat -> V (i + 2)%nat < V (i + 2 + p + 1)%nat ->
  div0 (U (i + S p + 1)%nat - x) (U (i + S p + 1)%nat - U (i + 1)%nat) * (1 - alpha U k b p (i + 2))
  = (1 - alpha U k b (S p) (i + 1)) * div0 (V (i + 1 + S p + 1)%nat - x) (V (i + 1 + S p + 1)%nat - V (i + 1 + 1)%nat).
Proof.
  intros Hi HV. unfold V in *.
  replace (i + 1 + S p + 1)%nat with (i + p + 3)%nat by lia. replace (i + 2 + p + 1)%nat with (i + p + 3)%nat in HV by lia.
  replace (i + 1 + 1)%nat with (i + 2)%nat by lia. replace (i + S p + 1)%nat with (i + p + 2)%nat by lia.
  destruct (le_dec (i + 2 + p) k).
  - rewrite !alpha_1 by lia. ring.
  - destruct (le_dec (i + 2) k).
    + rewrite (alpha_m U k b p) by lia. rewrite (ins_le U k b (i + 2)) in * by lia. rewrite (ins_gt U k b (i + p + 3) (i + p + 2)) in * by lia.
      rewrite (alpha_m U k b (S p)) by lia.
      replace (i + 1 + S p)%nat with (i + p + 2)%nat by lia. replace (i + 2 + p)%nat with (i + p + 2)%nat by lia.
      assert (U (i + 1)%nat <= U (i + 2)%nat) by (apply Hm; lia). rewrite !div0_nz by lra. field. split; lra.
    + destruct (Nat.eq_dec (i + 1) k) as [E|E].
      * rewrite (alpha_0 U k b p) by lia. rewrite (alpha_m U k b (S p)) by lia. rewrite (ins_eq U k b (i + 2)) in * by lia.
        rewrite (ins_gt U k b (i + p + 3) (i + p + 2)) in * by lia.
        replace (i + 1 + S p)%nat with (i + p + 2)%nat by lia. rewrite E in *.
        assert (U (k + 1)%nat <= U (i + p + 2)%nat) by (apply Hm; lia). rewrite !div0_nz by lra. field. split; lra.
      * rewrite !alpha_0 by lia. rewrite (ins_gt U k b (i + 2) (i + 1)) by lia. rewrite (ins_gt U k b (i + p + 3) (i + p + 2)) by lia. ring.
Qed.
Lemma coef_mid x p i : (i + p + 2 <= m)%nat -> V (i + 1)%nat < V (i + 1 + p + 1)%nat ->
  div0 (x - U i) (U (i + S p)%nat - U i) * (1 - alpha U k b p (i + 1))
  + div0 (U (i + S p + 1)%nat - x) (U (i + S p + 1)%nat - U (i + 1)%nat) * alpha U k b p (i + 1)
  = alpha U k b (S p) i * div0 (V (i + S p + 1)%nat - x) (V (i + S p + 1)%nat - V (i + 1)%nat)
  + (1 - alpha U k b (S p) (i + 1)) * div0 (x - V (i + 1)%nat) (V (i + 1 + S p)%nat - V (i + 1)%nat).
Proof.
  intros Hi HV. unfold V in *.
  replace (i + 1 + p + 1)%nat with (i + p + 2)%nat in HV by lia. replace (i + S p + 1)%nat with (i + p + 2)%nat by lia.
  replace (i + 1 + S p)%nat with (i + p + 2)%nat by lia. replace (i + S p)%nat with (i + p + 1)%nat by lia.
  destruct (le_dec (i + p + 2) k).
  { rewrite !alpha_1 by lia. rewrite !ins_le in * by lia. ring. }
  destruct (Nat.eq_dec (i + p + 1) k) as [E|E].
  { rewrite (alpha_1 U k b p), (alpha_1 U k b (S p) i) by lia. rewrite (alpha_m U k b (S p)) by lia.
    rewrite (ins_le U k b (i + 1)) in * by lia. rewrite (ins_eq U k b (i + p + 2)) in * by lia.
    replace (i + 1 + S p)%nat with (i + p + 2)%nat by lia.
    assert (U (i + p + 2)%nat = U (k + 1)%nat) as EE by (f_equal; lia). rewrite EE in *.
    rewrite (div0_nz (U (k + 1)%nat - x)), (div0_nz (b - x)), (div0_nz (x - U (i + 1)%nat)) by lra. field. split; lra. }
  destruct (lt_dec i k).
  { rewrite (alpha_m U k b p), (alpha_m U k b (S p) i), (alpha_m U k b (S p) (i + 1)) by lia.
    rewrite (ins_le U k b (i + 1)) in * by lia. rewrite (ins_gt U k b (i + p + 2) (i + p + 1)) in * by lia.
    replace (i + 1 + p)%nat with (i + p + 1)%nat by lia. replace (i + S p)%nat with (i + p + 1)%nat by lia.
    replace (i + 1 + S p)%nat with (i + p + 2)%nat by lia.
    assert (U i <= U (i + 1)%nat) by (apply Hm; lia). assert (U (i + p + 1)%nat <= U (i + p + 2)%nat) by (apply Hm; lia).
    rewrite !div0_nz by lra. field. repeat split; lra. }
  destruct (Nat.eq_dec i k) as [->|].
  { rewrite (alpha_0 U k b p), (alpha_0 U k b (S p) (k + 1)) by lia. rewrite (alpha_m U k b (S p)) by lia.
    rewrite (ins_eq U k b (k + 1)) in * by lia. rewrite (ins_gt U k b (k + p + 2) (k + p + 1)) in * by lia.
    replace (k + S p)%nat with (k + p + 1)%nat by lia.
    assert (U (k + 1)%nat <= U (k + p + 1)%nat) by (apply Hm; lia).
    rewrite (div0_nz (x - U k)), (div0_nz (U (k + p + 1)%nat - x)), (div0_nz (x - b)) by lra. field. split; lra. }
  rewrite !alpha_0 by lia. rewrite (ins_gt U k b (i + 1) i), (ins_gt U k b (i + p + 2) (i + p + 1)) by lia. ring.
Qed.

Lemma boehm_basis x : (s + 1 <= m + 1)%nat -> forall p i, (i + p + 1 <= m)%nat ->
  piece U t p i x = alpha U k b p i * piece V s p i x + (1 - alpha U k b p (i + 1)) * piece V s p (i + 1) x.
Proof.
  intros Hsm p. induction p; intros i Hi.
  - cbn [piece]. unfold t, old_span.
    destruct (Nat.leb_spec s k).
    + destruct (Nat.eq_dec i s) as [->|].
      * rewrite (alpha_1 U k b 0 s) by lia. destruct (Nat.eq_dec (s + 1) s); [lia|]. ring.
      * destruct (Nat.eq_dec (i + 1) s); [|ring]. rewrite (alpha_1 U k b 0 (i + 1)) by lia. ring.
    + destruct (Nat.eq_dec i (s - 1)) as [E|E].
      * rewrite (alpha_0 U k b 0 (i + 1)) by lia. destruct (Nat.eq_dec i s); [lia|]. destruct (Nat.eq_dec (i + 1) s); [|lia]. ring.
      * destruct (Nat.eq_dec (i + 1) s); [lia|]. destruct (Nat.eq_dec i s); [|ring]. rewrite (alpha_0 U k b 0 i) by lia. ring.
  - cbn [piece]. rewrite (IHp i) by lia. rewrite (IHp (i + 1)%nat) by lia.
    replace (i + 1 + 1)%nat with (i + 2)%nat by lia.
    pose proof ins_mono as HMV.
    set (B0 := piece V s p i x). set (B1 := piece V s p (i + 1) x). set (B2 := piece V s p (i + 2) x).
    assert (E0 : div0 (x - U i) (U (i + S p)%nat - U i) * alpha U k b p i * B0
                 = alpha U k b (S p) i * div0 (x - V i) (V (i + S p)%nat - V i) * B0).
    { destruct (piece_den V s (m + 1) p i x HMV Hs ltac:(lia)) as [Z|[_ Hlt]]; [unfold B0; rewrite Z; ring|].
      rewrite coef_left by (try lia; assumption). reflexivity. }
    assert (E1 : (div0 (x - U i) (U (i + S p)%nat - U i) * (1 - alpha U k b p (i + 1))
                  + div0 (U (i + S p + 1)%nat - x) (U (i + S p + 1)%nat - U (i + 1)%nat) * alpha U k b p (i + 1)) * B1
                 = (alpha U k b (S p) i * div0 (V (i + S p + 1)%nat - x) (V (i + S p + 1)%nat - V (i + 1)%nat)
                  + (1 - alpha U k b (S p) (i + 1)) * div0 (x - V (i + 1)%nat) (V (i + 1 + S p)%nat - V (i + 1)%nat)) * B1).
    { destruct (piece_den V s (m + 1) p (i + 1) x HMV Hs ltac:(lia)) as [Z|[_ Hlt]]; [unfold B1; rewrite Z; ring|].
      rewrite coef_mid by (try lia; assumption). reflexivity. }
    assert (E2 : div0 (U (i + S p + 1)%nat - x) (U (i + S p + 1)%nat - U (i + 1)%nat) * (1 - alpha U k b p (i + 2)) * B2
                 = (1 - alpha U k b (S p) (i + 1)) * div0 (V (i + 1 + S p + 1)%nat - x) (V (i + 1 + S p + 1)%nat - V (i + 1 + 1)%nat) * B2).
    { destruct (piece_den V s (m + 1) p (i + 2) x HMV Hs ltac:(lia)) as [Z|[_ Hlt]]; [unfold B2; rewrite Z; ring|].
      rewrite coef_right by (try lia; assumption). reflexivity. }
    transitivity (div0 (x - U i) (U (i + S p)%nat - U i) * alpha U k b p i * B0 +
      (div0 (x - U i) (U (i + S p)%nat - U i) * (1 - alpha U k b p (i + 1))
                  + div0 (U (i + S p + 1)%nat - x) (U (i + S p + 1)%nat - U (i + 1)%nat) * alpha U k b p (i + 1)) * B1 +
      div0 (U (i + S p + 1)%nat - x) (U (i + S p + 1)%nat - U (i + 1)%nat) * (1 - alpha U k b p (i + 2)) * B2); [ring|].
    rewrite E0, E1, E2. replace (i + 1 + 1)%nat with (i + 2)%nat by lia. ring.
Qed.

(** The control points of the refined curve. *)
Definition insP (p : nat) (P : nat -> R) (i : nat) : R :=
  alpha U k b p i * P i + (1 - alpha U k b p i) * prevP P i.

Lemma boehm_curve x p n (P : nat -> R) : (s + 1 <= m + 1)%nat -> (n + p <= m)%nat -> (p <= k)%nat -> (k < n)%nat ->
  Rsum (fun i => P i * piece U t p i x) n = Rsum (fun i => insP p P i * piece V s p i x) (n + 1).
Proof.
  intros Hsm Hn Hpk Hkn.
  rewrite (Rsum_ext _ (fun i => P i * alpha U k b p i * piece V s p i x + P i * (1 - alpha U k b p (i + 1)) * piece V s p (i + 1) x)).
  2:{ intros i Hi. rewrite boehm_basis by lia. ring. }
  rewrite Rsum_plus. unfold insP.
  rewrite (Rsum_ext (fun i => (alpha U k b p i * P i + (1 - alpha U k b p i) * prevP P i) * piece V s p i x)
    (fun i => P i * alpha U k b p i * piece V s p i x + prevP P i * (1 - alpha U k b p i) * piece V s p i x)) by (intros; ring).
  rewrite Rsum_plus. rewrite Nat.add_1_r. rewrite (Rsum_S (fun i => P i * _ * _)).
  rewrite (alpha_0 U k b p n) by lia. rewrite (Rsum_S_l (fun i => prevP P i * _ * _)). cbn [prevP].
  rewrite (Rsum_ext (fun i => P i * (1 - alpha U k b p (i + 1)) * piece V s p (i + 1) x)
     (fun i => P i * (1 - alpha U k b p (S i)) * piece V s p (S i) x)) by (intros; rewrite Nat.add_1_r; reflexivity).
  ring.
Qed.
End Boehm.
