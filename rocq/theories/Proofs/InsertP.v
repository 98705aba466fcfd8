(** knot_insertion / knot_insertion_kv compute repeated single insertions. *)
From Coq Require Import Lia Lra Psatz.
From Verif.Model Require Import RBase Nurbs.
From Verif.Spec Require Import NurbsSpec.
From Verif.Proofs Require Import VecP NurbsP NurbsP2 NurbsP3 BoehmP.
Open Scope R_scope.

(** ** Textbook level: one insertion, then r of them *)
Lemma span_exists U p l x : (p <= l)%nat -> U p <= x <= U (l + 1)%nat -> exists s, (p <= s <= l)%nat /\ in_span U l s x.
Proof.
  intros Hpl Hx.
  assert (L : forall d, (d <= l - p)%nat -> (exists s, (p <= s <= l)%nat /\ in_span U l s x) \/ U (p + d)%nat <= x).
  { induction d; intros Hd; [right; rewrite Nat.add_0_r; lra|].
    destruct (IHd ltac:(lia)) as [H|H]; [left; assumption|].
    destruct (Rlt_le_dec x (U (p + S d)%nat)) as [H'|H']; [|right; assumption].
    left. exists (p + d)%nat. split; [lia|]. left. split; [lia|]. split; [assumption|]. replace (p + d + 1)%nat with (p + S d)%nat by lia. assumption. }
  destruct (L (l - p)%nat ltac:(lia)) as [H|H]; [assumption|].
  exists l. split; [lia|]. right. replace (p + (l - p))%nat with l in H by lia. split; [reflexivity|lra].
Qed.

(** Function-level validity of a knot vector. *)
Definition fvalid (U : nat -> R) (p n : nat) : Prop := mono U (n + p) /\ (p < n)%nat /\ U (n - 1)%nat < U n.

Lemma ins_fvalid U p n k b : fvalid U p n -> (k < n)%nat -> U k <= b < U (k + 1)%nat -> fvalid (ins U k b) p (n + 1).
Proof.
  intros (Hm & Hp & Hl) Hk Hb. split; [|split; [lia|]].
  - replace (n + 1 + p)%nat with (n + p + 1)%nat by lia. apply ins_mono; auto. lia.
  - replace (n + 1 - 1)%nat with n by lia. destruct (Nat.eq_dec k (n - 1)) as [->|].
    + rewrite (ins_eq U (n - 1) b n), (ins_gt U (n - 1) b (n + 1) n) by lia. replace (n - 1 + 1)%nat with n in Hb by lia. lra.
    + rewrite (ins_gt U k b n (n - 1)), (ins_gt U k b (n + 1) n) by lia. assumption.
Qed.
Lemma ins_in_span U p n k b s x : fvalid U p n -> (k < n)%nat -> U k <= b < U (k + 1)%nat -> (s <= n)%nat ->
  in_span (ins U k b) n s x -> in_span U (n - 1) (old_span k s) x.
Proof.
  intros (Hm & Hp & Hl) Hk Hb Hsn Hin. unfold old_span. destruct (Nat.leb_spec s k) as [Hsk|Hsk].
  - destruct Hin as [[H1 H2]|[H1 H2]]; [|lia]. rewrite (ins_le U k b s) in H2 by lia.
    assert (x < U (s + 1)%nat). { destruct (Nat.eq_dec s k) as [->|]; [rewrite ins_eq in H2 by lia; lra|rewrite ins_le in H2 by lia; lra]. }
    destruct (Nat.eq_dec s (n - 1)) as [->|]; [right; split; [reflexivity|]; split; lra|left; split; [lia|lra]].
  - assert (Hlow : U (s - 1)%nat <= x).
    { assert (ins U k b s <= x) by (destruct Hin as [[_ H]|[-> H]]; lra).
      destruct (Nat.eq_dec s (k + 1)) as [->|]; [rewrite ins_eq in H by lia; replace (k + 1 - 1)%nat with k by lia; lra|].
      rewrite (ins_gt U k b s (s - 1)) in H by lia. assumption. }
    assert (Hup : ins U k b (s + 1) = U (s - 1 + 1)%nat) by (apply ins_gt; lia).
    destruct Hin as [[H1 H2]|[-> H2]].
    + rewrite Hup in H2. left. split; [lia|]. split; [assumption|lra].
    + rewrite Hup in H2. right. replace (n - 1 + 1)%nat with n in * by lia. split; [reflexivity|]. split; [assumption|lra].
Qed.
Lemma in_span_pos U p n s x : fvalid U p n -> in_span U (n - 1) s x -> U s < U (s + 1)%nat.
Proof.
  intros (Hm & Hp & Hl) [[H1 H2]|[-> H2]]; [lra|]. replace (n - 1 + 1)%nat with n by lia. assumption.
Qed.
Lemma fvalid_cox U p n s x q i : fvalid U p n -> in_span U (n - 1) s x -> coxdeboor U (n - 1) q i x = piece U s q i x.
Proof.
  intros (Hm & Hp & Hl) Hin. apply (coxdeboor_piece U (n - 1) s x (n + p)); auto; [lia|]. replace (n - 1 + 1)%nat with n by lia. assumption.
Qed.

Lemma insert_one U p n k b (P : nat -> R) x : fvalid U p n -> (p <= k < n)%nat -> U k <= b < U (k + 1)%nat -> U p <= x <= U n ->
  Rsum (fun i => coxdeboor U (n - 1) p i x * P i) n =
  Rsum (fun i => coxdeboor (ins U k b) n p i x * insP U k b p P i) (n + 1).
Proof.
  intros HV Hk Hb Hx. pose proof (ins_fvalid U p n k b HV ltac:(lia) Hb) as HV'.
  destruct (span_exists (ins U k b) p n x) as (s & Hs & Hin); [lia| |].
  { rewrite (ins_le U k b p), (ins_gt U k b (n + 1) n) by lia. assumption. }
  assert (HP : ins U k b s < ins U k b (s + 1)%nat).
  { apply (in_span_pos _ p (n + 1) s x HV'). replace (n + 1 - 1)%nat with n by lia. assumption. }
  pose proof HV as (Hm & Hp & Hl).
  transitivity (Rsum (fun i => P i * piece U (old_span k s) p i x) n).
  { apply Rsum_ext. intros i Hi. rewrite (fvalid_cox U p n (old_span k s) x p i HV); [ring|]. eapply ins_in_span; eauto; lia. }
  rewrite (boehm_curve U (n + p) k b Hm ltac:(lia) Hb s HP x p n P) by lia.
  apply Rsum_ext. intros i Hi.
  pose proof (fvalid_cox (ins U k b) p (n + 1) s x p i HV') as E. replace (n + 1 - 1)%nat with n in E by lia. rewrite E by assumption. ring.
Qed.

(** r copies of b after position k. *)
Definition insR (U : nat -> R) (k r : nat) (b : R) (i : nat) : R :=
  if (i <=? k)%nat then U i else if (i <=? k + r)%nat then b else U (i - r)%nat.
Lemma insR_le U k r b i : (i <= k)%nat -> insR U k r b i = U i.
Proof. intros. unfold insR. destruct (Nat.leb_spec i k); [reflexivity|lia]. Qed.
Lemma insR_mid U k r b i : (k < i <= k + r)%nat -> insR U k r b i = b.
Proof. intros. unfold insR. destruct (Nat.leb_spec i k); [lia|]. destruct (Nat.leb_spec i (k + r)); [reflexivity|lia]. Qed.
Lemma insR_gt U k r b i : (k + r < i)%nat -> insR U k r b i = U (i - r)%nat.
Proof. intros. unfold insR. destruct (Nat.leb_spec i k); [lia|]. destruct (Nat.leb_spec i (k + r)); [lia|reflexivity]. Qed.
Lemma insR_0 U k b i : insR U k 0 b i = U i.
Proof. destruct (le_dec i k); [apply insR_le; auto|]. rewrite insR_gt by lia. f_equal. lia. Qed.
Lemma insR_S U k r b i : insR U k (S r) b i = ins (insR U k r b) (k + r) b i.
Proof.
  destruct (le_dec i k); [rewrite ins_le, !insR_le by lia; reflexivity|].
  destruct (le_dec i (k + r)); [rewrite ins_le, !insR_mid by lia; reflexivity|].
  destruct (Nat.eq_dec i (k + r + 1)); [rewrite ins_eq, insR_mid by lia; reflexivity|].
  rewrite (ins_gt _ _ _ i (i - 1)) by lia. rewrite !insR_gt by lia. f_equal. lia.
Qed.
Lemma ins_ext U V k b i : (forall j, U j = V j) -> ins U k b i = ins V k b i.
Proof. intros H. unfold ins. rewrite !H. reflexivity. Qed.
Lemma cox_ext U V l x : (forall j, U j = V j) -> forall p i, coxdeboor U l p i x = coxdeboor V l p i x.
Proof.
  intros H p. induction p; intros i; cbn [coxdeboor].
  - unfold span_indicator. rewrite !H. reflexivity.
  - rewrite !H, !IHp. reflexivity.
Qed.
Lemma insR_fvalid U p n k b r : fvalid U p n -> (k < n)%nat -> U k <= b < U (k + 1)%nat -> fvalid (insR U k r b) p (n + r).
Proof.
  intros HV Hk Hb. assert (E : forall U V p n, (forall j, U j = V j) -> fvalid U p n -> fvalid V p n).
  { intros U0 V0 p0 n0 He (A & B & C). split; [|split; [assumption|rewrite <- !He; assumption]]. intros i j Hi Hj. rewrite <- !He. apply A; auto. }
  induction r.
  - rewrite Nat.add_0_r. eapply E; [|exact HV]. intros; symmetry; apply insR_0.
  - replace (n + S r)%nat with (n + r + 1)%nat by lia. eapply E; [intros j; symmetry; apply insR_S|].
    apply ins_fvalid; [exact IHr|lia|].
    rewrite (insR_gt U k r b (k + r + 1)) by lia. replace (k + r + 1 - r)%nat with (k + 1)%nat by lia.
    destruct r; [rewrite insR_le by lia; rewrite Nat.add_0_r; exact Hb|rewrite insR_mid by lia; lra].
Qed.

(** The control points after r insertions. *)
Fixpoint Qf (U : nat -> R) (k : nat) (b : R) (p r : nat) (P : nat -> R) : nat -> R :=
  match r with O => P | S r' => insP (insR U k r' b) (k + r') b p (Qf U k b p r' P) end.

Lemma insert_many U p n k b (P : nat -> R) x r : fvalid U p n -> (p <= k < n)%nat -> U k <= b < U (k + 1)%nat -> U p <= x <= U n ->
  Rsum (fun i => coxdeboor U (n - 1) p i x * P i) n =
  Rsum (fun i => coxdeboor (insR U k r b) (n + r - 1) p i x * Qf U k b p r P i) (n + r).
Proof.
  intros HV Hk Hb Hx. induction r.
  - rewrite Nat.add_0_r. apply Rsum_ext. intros i Hi. cbn [Qf]. rewrite (cox_ext (insR U k 0 b) U) by (intros; apply insR_0). reflexivity.
  - rewrite IHr. pose proof (insR_fvalid U p n k b r HV ltac:(lia) Hb) as HV'.
    rewrite (insert_one (insR U k r b) p (n + r) (k + r) b _ x HV') .
    + replace (n + S r)%nat with (n + r + 1)%nat by lia. replace (n + r + 1 - 1)%nat with (n + r)%nat by lia.
      apply Rsum_ext. intros i Hi. cbn [Qf]. rewrite (cox_ext (insR U k (S r) b) (ins (insR U k r b) (k + r) b)) by (intros; apply insR_S). reflexivity.
    + lia.
    + rewrite (insR_gt U k r b (k + r + 1)) by lia. replace (k + r + 1 - r)%nat with (k + 1)%nat by lia.
      destruct r; [rewrite insR_le by lia; rewrite Nat.add_0_r; exact Hb|rewrite insR_mid by lia; lra].
    + rewrite insR_le by lia. rewrite insR_gt by lia. replace (n + r - r)%nat with n by lia. exact Hx.
Qed.

(** Explicit form of one round when b already has multiplicity s. *)
Lemma Qf_S U k b p n s P j i : fvalid U p n -> (p <= k < n)%nat -> U k <= b < U (k + 1)%nat -> (s + j < p)%nat ->
  (forall i, (k - s < i <= k)%nat -> U i = b) ->
  Qf U k b p (S j) P i =
  if (i + p <=? k + j)%nat then Qf U k b p j P i
  else if (k - s <? i)%nat then prevP (Qf U k b p j P) i
  else (b - U i) / (U (i + p - j)%nat - U i) * Qf U k b p j P i + (1 - (b - U i) / (U (i + p - j)%nat - U i)) * prevP (Qf U k b p j P) i.
Proof.
  intros (Hm & Hp & Hl) Hk Hb Hsj HU. cbn [Qf]. unfold insP.
  destruct (Nat.leb_spec (i + p) (k + j)).
  { rewrite alpha_1 by lia. ring. }
  destruct (Nat.ltb_spec (k - s) i).
  - destruct (le_dec i (k + j)); [|rewrite alpha_0 by lia; ring].
    rewrite alpha_m by lia.
    assert (insR U k j b i = b) as ->. { destruct (le_dec i k); [rewrite insR_le by lia; apply HU; lia|apply insR_mid; lia]. }
    unfold Rdiv. replace (b - b) with 0 by ring. ring.
  - rewrite alpha_m by lia. rewrite (insR_le U k j b i) by lia. rewrite (insR_gt U k j b (i + p)) by lia. reflexivity.
Qed.
Lemma Qf_left U k b p n s P : fvalid U p n -> (p <= k < n)%nat -> U k <= b < U (k + 1)%nat ->
  (forall i, (k - s < i <= k)%nat -> U i = b) -> forall r j i, (s + r <= p)%nat -> (j <= r)%nat -> (i + p <= k + j)%nat -> Qf U k b p r P i = Qf U k b p j P i.
Proof.
  intros HV Hk Hb HU r. induction r; intros j i Hr Hj Hi; [replace j with 0%nat by lia; reflexivity|].
  destruct (Nat.eq_dec j (S r)) as [->|]; [reflexivity|].
  rewrite (Qf_S U k b p n s P r i HV Hk Hb ltac:(lia) HU). destruct (Nat.leb_spec (i + p) (k + r)); [|lia]. apply IHr; lia.
Qed.
Lemma Qf_right U k b p n s P : fvalid U p n -> (p <= k < n)%nat -> U k <= b < U (k + 1)%nat ->
  (forall i, (k - s < i <= k)%nat -> U i = b) -> forall d j, (s + (j + d) <= p)%nat -> forall i, (k - s <= i)%nat ->
  Qf U k b p (j + d) P (i + d)%nat = Qf U k b p j P i.
Proof.
  intros HV Hk Hb HU d. induction d; intros j Hj i Hi; [rewrite !Nat.add_0_r; reflexivity|].
  rewrite !Nat.add_succ_r. rewrite (Qf_S U k b p n s P (j + d) (S (i + d)) HV Hk Hb ltac:(lia) HU).
  destruct (Nat.leb_spec (S (i + d) + p) (k + (j + d))); [lia|]. destruct (Nat.ltb_spec (k - s) (S (i + d))); [|lia].
  cbn [prevP]. apply IHd; lia.
Qed.

(** ** List primitives *)
Lemma set_nth_length {A} (l : list A) i x : length (set_nth l i x) = length l.
Proof. revert i; induction l; intros [|i]; cbn; auto. Qed.
Lemma set_nth_eq {A} (l : list A) i x d : (i < length l)%nat -> nth i (set_nth l i x) d = x.
Proof. revert i; induction l; intros [|i] H; cbn in *; auto; try lia. apply IHl. lia. Qed.
Lemma set_nth_ne {A} (l : list A) i j x d : i <> j -> nth j (set_nth l i x) d = nth j l d.
Proof. revert i j; induction l; intros [|i] [|j] H; cbn; auto; try lia. Qed.
Lemma firstn_nth {A} (l : list A) k i d : (i < k)%nat -> nth i (firstn k l) d = nth i l d.
Proof. revert k i; induction l; intros [|k] [|i] H; cbn; auto; try lia. apply IHl. lia. Qed.
Lemma skipn_nth {A} (l : list A) k i d : nth i (skipn k l) d = nth (k + i) l d.
Proof. revert k; induction l; intros [|k]; cbn; auto. destruct i; reflexivity. Qed.

(** ** knot_insertion_kv *)
Lemma set_range_nth (U : list R) (f : nat -> R) (g : nat -> nat) : forall len a (kv : list R),
  (forall x y, g x = g y -> x = y) ->
  let kv' := fold_left (fun kv i => set_nth kv (g i) (f i)) (seq a len) kv in
  length kv' = length kv /\
  (forall i, (a <= i < a + len)%nat -> (g i < length kv)%nat -> nth (g i) kv' 0 = f i) /\
  (forall j, (forall i, (a <= i < a + len)%nat -> g i <> j) -> nth j kv' 0 = nth j kv 0).
Proof.
  induction len; intros a kv Hg; cbn [seq fold_left].
  - repeat split; auto. intros; lia.
  - destruct (IHlen (S a) (set_nth kv (g a) (f a)) Hg) as (A & B & C). cbn zeta in *. rewrite set_nth_length in *. repeat split; auto.
    + intros i Hi Hl. destruct (Nat.eq_dec i a) as [->|].
      * rewrite C. -- apply set_nth_eq; assumption. -- intros i Hi' E. apply Hg in E. lia.
      * apply B; auto. lia.
    + intros j Hj. rewrite C by (intros; apply Hj; lia). apply set_nth_ne. apply Hj. lia.
Qed.
Lemma kv_insertion_length U u k r : length (knot_insertion_kv U u k r) = (length U + r)%nat.
Proof.
  unfold knot_insertion_kv.
  rewrite (proj1 (set_range_nth U (fun i => kn U i) (fun i => (i + r)%nat) _ _ _ ltac:(cbn beta; intros; lia))).
  rewrite (proj1 (set_range_nth U (fun i => u) (fun i => (k + i)%nat) _ _ _ ltac:(cbn beta; intros; lia))).
  rewrite (proj1 (set_range_nth U (fun i => kn U i) (fun i => i) _ _ _ ltac:(cbn beta; intros; lia))). rewrite repeat_length. reflexivity.
Qed.
Lemma kv_insertion_nth U u k r i : (k < length U)%nat -> (i < length U + r)%nat ->
  nth i (knot_insertion_kv U u k r) 0 = insR (knots_of U) k r u i.
Proof.
  intros Hk Hi. unfold knot_insertion_kv.
  set (kv0 := repeat 0 (length U + r)).
  destruct (set_range_nth U (fun i => kn U i) (fun i => i) (k + 1) 0 kv0 ltac:(cbn beta; intros; lia)) as (A1 & B1 & C1).
  cbn zeta in *. set (kv1 := fold_left (fun kv i => set_nth kv i (kn U i)) (seq 0 (k + 1)) kv0) in *.
  destruct (set_range_nth U (fun i => u) (fun i => (k + i)%nat) r 1 kv1 ltac:(cbn beta; intros; lia)) as (A2 & B2 & C2).
  cbn zeta in *. set (kv2 := fold_left (fun kv i => set_nth kv (k + i) u) (seq 1 r) kv1) in *.
  destruct (set_range_nth U (fun i => kn U i) (fun i => (i + r)%nat) (length U - (k + 1)) (k + 1) kv2 ltac:(cbn beta; intros; lia)) as (A3 & B3 & C3).
  cbn zeta in *. assert (L0 : length kv0 = (length U + r)%nat) by apply repeat_length.
  destruct (le_dec i k).
  - rewrite insR_le by lia. rewrite C3 by (intros; lia). rewrite C2 by (intros; lia). rewrite B1 by lia. reflexivity.
  - destruct (le_dec i (k + r)).
    + rewrite insR_mid by lia. rewrite C3 by (intros; lia). replace i with (k + (i - k))%nat by lia. rewrite B2 by lia. reflexivity.
    + rewrite insR_gt by lia. replace i with (i - r + r)%nat at 1 by lia. rewrite B3 by lia. reflexivity.
Qed.
Lemma nth_repeat_lt {A} (x : A) d : forall m i, (i < m)%nat -> nth i (repeat x m) d = x.
Proof. induction m; intros [|i] H; cbn; auto; try lia. apply IHm. lia. Qed.
Lemma kv_insertion_explicit U u k r : (k < length U)%nat ->
  knot_insertion_kv U u k r = firstn (k + 1) U ++ repeat u r ++ skipn (k + 1) U.
Proof.
  intros Hk. apply (nth_ext _ _ 0 0).
  - rewrite kv_insertion_length, !app_length, firstn_length, repeat_length, skipn_length. lia.
  - intros i Hi. rewrite kv_insertion_length in Hi. rewrite kv_insertion_nth by assumption.
    assert (L1 : length (firstn (k + 1) U) = (k + 1)%nat) by (rewrite firstn_length; lia).
    destruct (le_dec i k).
    + rewrite insR_le by lia. rewrite app_nth1 by lia. rewrite firstn_nth by lia. reflexivity.
    + rewrite app_nth2 by lia. rewrite L1. destruct (le_dec i (k + r)).
      * rewrite insR_mid by lia. rewrite app_nth1 by (rewrite repeat_length; lia). symmetry. apply (nth_repeat_lt u 0 r). lia.
      * rewrite insR_gt by lia. rewrite app_nth2 by (rewrite repeat_length; lia). rewrite repeat_length, skipn_nth. unfold knots_of. f_equal. lia.
Qed.

(** ** knot_insertion *)
Section Insertion.
Variables (p : nat) (U : list R) (P : list (list R)) (u : R) (r s k : nat).
Let n := length P.
Let d := length (cpt P 0).
Let W := knots_of U.
Hypothesis HV : fvalid W p n.
Hypothesis Hk : (p <= k < n)%nat.
Hypothesis Hu : W k <= u < W (k + 1)%nat.
Hypothesis Hmul : forall i, (k - s < i <= k)%nat -> W i = u.
Hypothesis Hs : (s + r <= p)%nat.
Hypothesis Hr : (1 <= r)%nat.
Hypothesis Hdim : forall Q, In Q P -> length Q = d.

Definition coordP (c : nat) (i : nat) : R := nth c (nth i P []) 0.
Definition Qv (j i : nat) : list R := map (fun c => Qf W k u p j (coordP c) i) (seq 0 d).

Lemma Qv_0 i : (i < n)%nat -> Qv 0 i = nth i P [].
Proof.
  intros Hi. unfold Qv. cbn [Qf]. assert (L : length (nth i P []) = d) by (apply Hdim, nth_In; assumption).
  apply list_eq_nth; rewrite map_length, seq_length; [auto|]. intros j Hj. rewrite seq_map_nth by assumption. reflexivity.
Qed.
Lemma padd_map a b' (f g : nat -> R) L : padd (pscale a (map f L)) (pscale b' (map g L)) = map (fun c => a * f c + b' * g c) L.
Proof. unfold padd, pscale. induction L; cbn; [reflexivity|]. rewrite IHL. reflexivity. Qed.

Lemma row_step j i0 : (s + S j <= p)%nat -> (i0 <= p - S j - s)%nat ->
  padd (pscale (knot_insertion_alpha u U k i0 (k - p + S j)) (Qv j (k - p + j + (i0 + 1))))
       (pscale (1 - knot_insertion_alpha u U k i0 (k - p + S j)) (Qv j (k - p + j + i0)))
  = Qv (S j) (k - p + S j + i0).
Proof.
  intros Hj Hi. unfold Qv. rewrite padd_map. apply map_ext. intros c.
  rewrite (Qf_S W k u p n s _ j (k - p + S j + i0) HV Hk Hu ltac:(lia) Hmul).
  destruct (Nat.leb_spec (k - p + S j + i0 + p) (k + j)); [lia|].
  destruct (Nat.ltb_spec (k - s) (k - p + S j + i0)); [lia|].
  unfold knot_insertion_alpha. replace (k - p + S j + i0 + p - j)%nat with (i0 + k + 1)%nat by lia.
  replace (k - p + j + (i0 + 1))%nat with (k - p + S j + i0)%nat by lia.
  assert (EP : forall f : nat -> R, prevP f (k - p + S j + i0) = f (k - p + j + i0)%nat) by (intros f; replace (k - p + S j + i0)%nat with (S (k - p + j + i0)) by lia; reflexivity).
  rewrite EP. reflexivity.
Qed.

(** The inner loop: temp is rewritten from Qv j to Qv (j+1). *)
Lemma row_spec j temp : (s + S j <= p)%nat -> length temp = (p + 1)%nat ->
  (forall i0, (i0 <= p - j - s)%nat -> nth i0 temp [] = Qv j (k - p + j + i0)) ->
  let temp' := insertion_row u U k (S j) (k - p + S j) p s temp in
  length temp' = (p + 1)%nat /\ (forall i0, (i0 <= p - S j - s)%nat -> nth i0 temp' [] = Qv (S j) (k - p + S j + i0)).
Proof.
  intros Hj HL HT. unfold insertion_row. cbn zeta.
  assert (G : forall len, (len <= p + 1 - S j - s)%nat ->
    let t' := fold_left (fun t i => let alpha := knot_insertion_alpha u U k i (k - p + S j) in
                set_nth t i (padd (pscale alpha (nth (i + 1) t [])) (pscale (1 - alpha) (nth i t [])))) (seq 0 len) temp in
    length t' = (p + 1)%nat /\ (forall i0, (i0 < len)%nat -> nth i0 t' [] = Qv (S j) (k - p + S j + i0)) /\
    (forall i0, (len <= i0 <= p - j - s)%nat -> nth i0 t' [] = Qv j (k - p + j + i0))).
  { induction len; intros Hlen; cbn zeta.
    - cbn. repeat split; auto. intros; lia. intros; apply HT; lia.
    - rewrite seq_S, fold_left_app. cbn [fold_left Nat.add]. destruct (IHlen ltac:(lia)) as (A & B & C). cbn zeta in *.
      set (t' := fold_left _ (seq 0 len) temp) in *. rewrite set_nth_length. repeat split; [assumption| |].
      + intros i0 Hi0. destruct (Nat.eq_dec i0 len) as [->|].
        * rewrite set_nth_eq by lia. rewrite !C by lia. apply row_step; lia.
        * rewrite set_nth_ne by lia. apply B. lia.
      + intros i0 Hi0. rewrite set_nth_ne by lia. apply C. lia. }
  destruct (G (p + 1 - S j - s)%nat ltac:(lia)) as (A & B & C). split; [assumption|]. intros i0 Hi0. apply B. lia.
Qed.

(** Invariant of the outer loop after j rounds. *)
Definition inv (j : nat) (st : list (list R) * list (list R)) : Prop :=
  length (fst st) = (n + r)%nat /\
  (forall i, (i < n + r)%nat -> (i + p <= k + j)%nat \/ (k + r <= i + j + s)%nat -> nth i (fst st) [] = Qv r i) /\
  length (snd st) = (p + 1)%nat /\
  (forall i0, (i0 <= p - j - s)%nat -> nth i0 (snd st) [] = Qv j (k - p + j + i0)).

Lemma Qv_left j i : (j <= r)%nat -> (i + p <= k + j)%nat -> Qv r i = Qv j i.
Proof. intros. unfold Qv. apply map_ext. intros c. apply (Qf_left W k u p n s _ HV Hk Hu Hmul); lia. Qed.
Lemma Qv_right j i : (j <= r)%nat -> (k - s + (r - j) = i)%nat -> Qv r i = Qv j (k - s).
Proof.
  intros. unfold Qv. apply map_ext. intros c.
  pose proof (Qf_right W k u p n s (coordP c) HV Hk Hu Hmul (r - j) j ltac:(lia) (k - s)%nat ltac:(lia)) as E.
  replace (j + (r - j))%nat with r in E by lia. rewrite <- H0. exact E.
Qed.

Lemma round_inv j st : (j < r)%nat -> inv j st -> inv (S j) (insertion_round u U k r p s st (S j)).
Proof.
  intros Hj (A & B & C & D). destruct st as [new temp]. cbn [fst snd] in *. unfold insertion_round.
  destruct (row_spec j temp ltac:(lia) C D) as [C' D']. cbn zeta in *. set (temp' := insertion_row _ _ _ _ _ _ _ temp) in *.
  unfold inv. cbn [fst snd]. rewrite !set_nth_length. split; [assumption|]. split; [|split; assumption].
  intros i Hi Hor.
  destruct (Nat.eq_dec i (k + r - S j - s)) as [->|Hne].
  - rewrite set_nth_eq by (rewrite set_nth_length; lia). rewrite D' by lia.
    rewrite (Qv_right (S j) (k + r - S j - s)) by lia. f_equal. lia.
  - rewrite set_nth_ne by lia. destruct (Nat.eq_dec i (k - p + S j)) as [->|Hne2].
    + rewrite set_nth_eq by lia. rewrite D' by lia. rewrite Nat.add_0_r. symmetry. apply Qv_left; lia.
    + rewrite set_nth_ne by lia. apply B; [assumption|]. lia.
Qed.
Lemma rounds_inv : forall j, (j <= r)%nat -> forall st, inv 0 st -> inv j (fold_left (insertion_round u U k r p s) (seq 1 j) st).
Proof.
  induction j; intros Hj st H0; [exact H0|]. rewrite seq_S, fold_left_app. cbn [fold_left Nat.add]. apply round_inv; [lia|]. apply IHj; [lia|assumption].
Qed.

Lemma fill_temp : forall len (t : list (list R)), (len <= length t)%nat ->
  let t' := fold_left (fun t i => set_nth t i (cpt P (k - p + i))) (seq 0 len) t in
  length t' = length t /\ forall i, (i < len)%nat -> nth i t' [] = cpt P (k - p + i).
Proof.
  induction len; intros t Hl; [split; [reflexivity|intros; lia]|]. rewrite seq_S, fold_left_app. cbn [fold_left Nat.add].
  destruct (IHlen t ltac:(lia)) as [A B]. cbn zeta in *. rewrite set_nth_length. split; [assumption|].
  intros i Hi. destruct (Nat.eq_dec i len) as [->|]; [apply set_nth_eq; lia|]. rewrite set_nth_ne by lia. apply B. lia.
Qed.

Lemma knot_insertion_spec : 
  knot_insertion p U P u r s k =
  if (s + r =? p)%nat then map (Qv r) (seq 0 (n + r))
  else map (Qv r) (seq 0 (k - s + 1)) ++ map (Qv r) (seq (k - s) (n + r - (k - s))).
Proof.
  unfold knot_insertion. fold n d.
  set (new0 := repeat (pzero d) (n + r)).
  assert (L0 : length new0 = (n + r)%nat) by apply repeat_length.
  set (new1 := slice_assign new0 0 (k - p + 1) (firstn (k - p + 1) P)).
  assert (E1 : new1 = firstn (k - p + 1) P ++ skipn (k - p + 1) new0) by (unfold new1, slice_assign; cbn; reflexivity).
  assert (LF : length (firstn (k - p + 1) P) = (k - p + 1)%nat) by (rewrite firstn_length; fold n; lia).
  assert (L1 : length new1 = (n + r)%nat) by (rewrite E1, app_length, LF, skipn_length; lia).
  set (new2 := slice_assign new1 (k - s + r) (length new1) (skipn (k - s) P)).
  assert (E2 : new2 = firstn (k - s + r) new1 ++ skipn (k - s) P).
  { unfold new2, slice_assign. rewrite (skipn_all2 new1) by lia. rewrite app_nil_r. reflexivity. }
  assert (LF2 : length (firstn (k - s + r) new1) = (k - s + r)%nat) by (rewrite firstn_length; lia).
  assert (L2 : length new2 = (n + r)%nat) by (rewrite E2, app_length, LF2, skipn_length; fold n; lia).
  set (temp1 := fold_left _ (seq 0 (p - s + 1)) (repeat (pzero d) (p + 1))).
  assert (HT : length temp1 = (p + 1)%nat /\ forall i, (i < p - s + 1)%nat -> nth i temp1 [] = cpt P (k - p + i)).
  { pose proof (fill_temp (p - s + 1) (repeat (pzero d) (p + 1))) as [X Y]; [rewrite repeat_length; lia|]. rewrite repeat_length in X. split; assumption. }
  destruct HT as [HT1 HT2].
  assert (I0 : inv 0 (new2, temp1)).
  { split; [exact L2|]. split; [|split; [exact HT1|]]; cbn [fst snd].
    - intros i Hi [H|H].
      + rewrite (Qv_left 0 i) by lia. rewrite Qv_0 by lia. rewrite E2. rewrite app_nth1 by (rewrite LF2; lia). rewrite firstn_nth by lia.
        rewrite E1, app_nth1 by lia. apply firstn_nth. lia.
      + assert (EQ : Qv r i = Qv 0 (i - r)).
        { unfold Qv. apply map_ext. intros c. pose proof (Qf_right W k u p n s (coordP c) HV Hk Hu Hmul r 0 ltac:(lia) (i - r)%nat ltac:(lia)) as E.
          replace (i - r + r)%nat with i in E by lia. exact E. }
        rewrite EQ, Qv_0 by lia. rewrite E2, app_nth2 by lia. rewrite LF2, skipn_nth. f_equal. lia.
    - intros i0 Hi0. rewrite HT2 by lia. rewrite Qv_0 by lia. unfold cpt. f_equal. lia. }
  pose proof (rounds_inv r ltac:(lia) _ I0) as IR.
  destruct (fold_left (insertion_round u U k r p s) (seq 1 r) (new2, temp1)) as [new3 temp] eqn:EF.
  destruct IR as (A & B & C & D). cbn [fst snd] in *.
  unfold slice_assign, slice.
  destruct (Nat.eqb_spec (s + r) p) as [E|E].
  - replace (k - s - (k - p + r) + 1 - 1)%nat with 0%nat by lia. cbn [firstn app].
    replace (Nat.max (k - p + r + 1) (k - s)) with (k - p + r + 1)%nat by lia. rewrite firstn_skipn.
    apply (nth_ext _ _ [] []); [rewrite map_length, seq_length; exact A|]. intros i Hi. rewrite A in Hi. rewrite seq_map_nth by lia.
    apply B; [assumption|lia].
  - replace (Nat.max (k - p + r + 1) (k - s)) with (k - s)%nat by lia.
    replace (k - s - (k - p + r) + 1 - 1)%nat with (p - s - r)%nat by lia.
    assert (LS : length (firstn (p - s - r) (skipn 1 temp)) = (p - s - r)%nat) by (rewrite firstn_length, skipn_length; lia).
    assert (LN : length (firstn (k - p + r + 1) new3) = (k - p + r + 1)%nat) by (rewrite firstn_length; lia).
    rewrite app_assoc. apply f_equal2.
    + apply (nth_ext _ _ [] []). { rewrite app_length, map_length, seq_length, LN, LS. lia. }
      intros i Hi. rewrite app_length, LN, LS in Hi. rewrite seq_map_nth by lia. cbn [Nat.add].
      destruct (lt_dec i (k - p + r + 1)).
      * rewrite app_nth1 by lia. rewrite firstn_nth by lia. apply B; lia.
      * rewrite app_nth2 by lia. rewrite LN, firstn_nth, skipn_nth by lia. rewrite D by lia. f_equal. lia.
    + apply (nth_ext _ _ [] []). { rewrite skipn_length, map_length, seq_length. lia. }
      intros i Hi. rewrite skipn_length in Hi. rewrite skipn_nth, seq_map_nth by lia. apply B; lia.
Qed.
End Insertion.
