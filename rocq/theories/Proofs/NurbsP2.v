(** Basis-function variants, binary search, hull and end-point properties, curve objects. *)
From Coq Require Import Lia Lra Psatz.
From Verif.Model Require Import RBase Nurbs.
From Verif.Spec Require Import NurbsSpec CurveSpec.
From Verif.Proofs Require Import VecP NurbsP.
Open Scope R_scope.

(** ** find_span_linear as an API *)
Lemma find_span_linear_domain p n U u : valid_kv p n U -> nth p U 0 <= u < nth n U 0 ->
  (p <= find_span_linear p U n u < n)%nat /\ nth (find_span_linear p U n u) U 0 <= u < nth (find_span_linear p U n u + 1) U 0.
Proof.
  intros HV Hu. destruct (valid_facts p n U u HV) as (Hm & Hs & Hlt & Hin & Hsp & _); [unfold kn; lra|].
  cbn zeta in *. split; [assumption|]. destruct Hsp as [[H1 H2]|[H1 H2]]; [exact H2|].
  rewrite H1 in *. unfold knots_of in *. replace (n - 1 + 1)%nat with n in * by lia. lra.
Qed.
Lemma find_span_linear_end p n U u : valid_kv p n U -> nth n U 0 <= u -> find_span_linear p U n u = (n - 1)%nat.
Proof.
  intros (HL & Hp & Hs & Hlast) Hu. destruct (span_linear_spec p U n u Hp) as (A & B & C). cbn zeta in *.
  remember (find_span_linear p U n u) as s. destruct (Nat.eq_dec s (n - 1)); [assumption|].
  specialize (C ltac:(lia)). unfold kn in C. assert (nth (s + 1) U 0 <= nth n U 0) by (apply Hs; lia). lra.
Qed.
Lemma find_span_linear_before p n U u : valid_kv p n U -> u < nth p U 0 -> find_span_linear p U n u = p.
Proof.
  intros (HL & Hp & Hs & Hlast) Hu. destruct (span_linear_spec p U n u Hp) as (A & B & C). cbn zeta in *.
  remember (find_span_linear p U n u) as s. destruct (Nat.eq_dec s p); [assumption|].
  specialize (B (p + 1)%nat ltac:(lia)). unfold kn in B. assert (nth p U 0 <= nth (p + 1) U 0) by (apply Hs; lia). lra.
Qed.

(** ** find_span_binsearch *)
Lemma div2_spec a : (2 * Nat.div2 a <= a < 2 * Nat.div2 a + 2)%nat.
Proof. pose proof (Nat.div2_odd a). destruct (Nat.odd a); cbn [Nat.b2n] in *; lia. Qed.
Lemma bin_loop_ok U u : forall fuel low high, (high - low <= fuel)%nat -> (low < high)%nat ->
  kn U low <= u < kn U high ->
  exists s, bin_loop fuel U u low high (Nat.div2 (low + high)) = Ok s /\ (low <= s < high)%nat /\ kn U s <= u < kn U (s + 1).
Proof.
  induction fuel; intros low high Hf Hlh Hu; [lia|].
  pose proof (div2_spec (low + high)) as D. remember (Nat.div2 (low + high)) as mid.
  cbn [bin_loop].
  destruct (Rltb u (kn U mid)) eqn:E1; cbn [orb].
  - rb. assert (mid <> low) by (intros ->; lra).
    destruct (IHfuel low mid ltac:(lia) ltac:(lia) ltac:(lra)) as (s & A & B & C). exists s. split; [assumption|]. split; [lia|assumption].
  - destruct (Rleb (kn U (mid + 1)) u) eqn:E2; rb.
    + assert (mid <> low). { intros ->. assert (high = low + 1)%nat by lia. subst high. lra. }
      destruct (IHfuel mid high ltac:(lia) ltac:(lia) ltac:(lra)) as (s & A & B & C). exists s. split; [assumption|]. split; [lia|assumption].
    + exists mid. split; [reflexivity|]. split; [lia|lra].
Qed.
Lemma binsearch_domain p n U u tol fuel : valid_kv p n U -> (n - p <= fuel)%nat -> nth p U 0 <= u < nth n U 0 ->
  tol < Rabs (nth n U 0 - u) ->
  find_span_binsearch fuel p U n u tol = Ok (find_span_linear p U n u).
Proof.
  intros HV Hf Hu Ht. pose proof HV as (HL & Hp & Hs & Hlast). unfold find_span_binsearch.
  replace (n - 1 + 1)%nat with n by lia.
  destruct (Rleb (Rabs (kn U n - u)) tol) eqn:E; rb; [unfold kn in E; lra|].
  destruct (bin_loop_ok U u fuel p n Hf Hp Hu) as (s & A & B & C). rewrite A. f_equal.
  destruct (find_span_linear_domain p n U u HV Hu) as [F G].
  pose proof (sorted_mono U Hs) as M.
  apply (in_span_unique (knots_of U) (n - 1) s _ u (length U - 1) M); unfold knots_of; try lia.
  - replace (n - 1 + 1)%nat with n by lia. assumption.
  - unfold in_span. destruct (Nat.eq_dec s (n - 1)) as [->|]; [right|left; unfold kn in C; split; [lia|lra]].
    unfold kn in C. split; [reflexivity|]. replace (n - 1 + 1)%nat with n in * by lia. split; lra.
  - unfold in_span. destruct (Nat.eq_dec (find_span_linear p U n u) (n - 1)) as [Eq|]; [right; rewrite Eq in *|left; split; [lia|lra]].
    split; [reflexivity|]. replace (n - 1 + 1)%nat with n in * by lia. split; lra.
Qed.
Lemma binsearch_band p n U u tol fuel : (0 < n)%nat -> Rabs (nth n U 0 - u) <= tol ->
  find_span_binsearch fuel p U n u tol = Ok (n - 1)%nat.
Proof.
  intros Hn Ht. unfold find_span_binsearch. replace (n - 1 + 1)%nat with n by lia.
  destruct (Rleb (Rabs (kn U n - u)) tol) eqn:E; rb; [reflexivity|]. unfold kn in E. lra.
Qed.
Lemma bin_loop_above U u n : forall fuel low, (low < n)%nat -> (forall i, (low <= i <= n)%nat -> kn U i <= u) ->
  forall mid, (low <= mid < n)%nat -> bin_loop fuel U u low n mid = Err OutOfFuel.
Proof.
  induction fuel; intros low Hl H mid Hmid; cbn [bin_loop];
    (destruct (Rltb u (kn U mid)) eqn:E1; rb; [specialize (H mid ltac:(lia)); lra|]; cbn [orb];
     destruct (Rleb (kn U (mid + 1)) u) eqn:E2; rb; [|specialize (H (mid + 1)%nat ltac:(lia)); lra]); [reflexivity|].
  pose proof (div2_spec (mid + n)). apply IHfuel; [lia|intros; apply H; lia|lia].
Qed.
Lemma bin_loop_below U u low : forall fuel high, (low <= high)%nat -> (forall i, (low <= i <= high)%nat -> u < kn U i) ->
  forall mid, (low <= mid <= high)%nat -> bin_loop fuel U u low high mid = Err OutOfFuel.
Proof.
  induction fuel; intros high Hl H mid Hmid; cbn [bin_loop];
    (destruct (Rltb u (kn U mid)) eqn:E1; rb; [|specialize (H mid ltac:(lia)); lra]; cbn [orb]); [reflexivity|].
  pose proof (div2_spec (low + mid)). apply IHfuel; [lia|intros; apply H; lia|lia].
Qed.
(** Outside the domain (and its tolerance) the search never ends. *)
Lemma binsearch_diverges p n U u tol : valid_kv p n U -> u < nth p U 0 \/ nth n U 0 <= u ->
  tol < Rabs (nth n U 0 - u) -> forall fuel, find_span_binsearch fuel p U n u tol = Err OutOfFuel.
Proof.
  intros (HL & Hp & Hs & Hlast) Hu Ht fuel. unfold find_span_binsearch. replace (n - 1 + 1)%nat with n by lia.
  destruct (Rleb (Rabs (kn U n - u)) tol) eqn:E; rb; [unfold kn in E; lra|].
  pose proof (div2_spec (p + n)).
  destruct Hu as [Hu|Hu].
  - apply bin_loop_below; [lia| |lia]. intros i Hi. unfold kn. assert (nth p U 0 <= nth i U 0) by (apply Hs; lia). lra.
  - apply bin_loop_above; [lia| |lia]. intros i Hi. unfold kn. assert (nth i U 0 <= nth n U 0) by (apply Hs; lia). lra.
Qed.

(** ** Basis functions as an API *)
Lemma seq_add_map a : forall k, map (fun i => (a + i)%nat) (seq 0 k) = seq a k.
Proof. induction k; [reflexivity|]. rewrite !seq_S, map_app, IHk. reflexivity. Qed.
Lemma basis_coxdeboor p n U u : valid_kv p n U -> nth p U 0 <= u <= nth n U 0 ->
  let s := find_span_linear p U n u in
  basis_function p U s u = map (fun i => coxdeboor (knots_of U) (n - 1) p i u) (seq (s - p) (p + 1)).
Proof.
  intros HV Hu. destruct (valid_facts p n U u HV Hu) as (Hm & Hs & Hlt & Hin & Hsp & HC). cbn zeta in *.
  rewrite (basis_function_spec U (n + p) _ u Hm Hlt p) by lia. apply map_ext. intros. rewrite HC. reflexivity.
Qed.
Lemma coxdeboor_outside p n U u i : valid_kv p n U -> nth p U 0 <= u <= nth n U 0 ->
  let s := find_span_linear p U n u in ~ (s - p <= i <= s)%nat -> coxdeboor (knots_of U) (n - 1) p i u = 0.
Proof.
  intros HV Hu. destruct (valid_facts p n U u HV Hu) as (Hm & Hs & Hlt & Hin & Hsp & HC). cbn zeta in *.
  intros Hi. rewrite HC. apply piece_supp. lia.
Qed.
Lemma coxdeboor_nonneg p n U u i : valid_kv p n U -> nth p U 0 <= u <= nth n U 0 -> (i < n)%nat ->
  0 <= coxdeboor (knots_of U) (n - 1) p i u.
Proof.
  intros HV Hu Hi. destruct (valid_facts p n U u HV Hu) as (Hm & Hs & Hlt & Hin & Hsp & HC). cbn zeta in *.
  rewrite HC. eapply piece_nonneg; eauto. lia.
Qed.
Lemma coxdeboor_sum p n U u : valid_kv p n U -> nth p U 0 <= u <= nth n U 0 ->
  Rsum (fun i => coxdeboor (knots_of U) (n - 1) p i u) n = 1.
Proof.
  intros HV Hu. destruct (valid_facts p n U u HV Hu) as (Hm & Hs & Hlt & Hin & Hsp & HC). cbn zeta in *.
  rewrite (Rsum_ext _ (fun i => piece (knots_of U) (find_span_linear p U n u) p i u)) by (intros; apply HC).
  apply (piece_sum _ _ (n + p)); auto; lia.
Qed.
Lemma basis_nonneg_sum p n U u : valid_kv p n U -> nth p U 0 <= u <= nth n U 0 ->
  let N := basis_function p U (find_span_linear p U n u) u in
  length N = (p + 1)%nat /\ (forall x, In x N -> 0 <= x) /\ fold_right Rplus 0 N = 1.
Proof.
  intros HV Hu. cbn zeta. split; [apply basis_function_length|].
  destruct (valid_facts p n U u HV Hu) as (Hm & Hs & Hlt & Hin & Hsp & HC). cbn zeta in *.
  rewrite (basis_coxdeboor p n U u HV Hu). cbn zeta. split.
  - intros x Hx. apply in_map_iff in Hx as (i & <- & Hi). apply in_seq in Hi. apply coxdeboor_nonneg; auto. lia.
  - rewrite <- (coxdeboor_sum p n U u HV Hu). symmetry.
    rewrite (Rsum_window _ (find_span_linear p U n u - p) (p + 1) n); [|lia|].
    + unfold Rsum. f_equal. rewrite <- (map_map (fun i => (find_span_linear p U n u - p + i)%nat)
         (fun i => coxdeboor (knots_of U) (n - 1) p i u)). f_equal. apply seq_add_map.
    + intros i Hi Ho. apply coxdeboor_outside; auto. lia.
Qed.
