From Coq Require Import Lia Lra Psatz.
From Verif.Model Require Import RBase Nurbs LinSolve.
From Verif.Spec Require Import NurbsSpec LinSpec.
From Verif.Proofs Require Import VecP NurbsP NurbsP2 NurbsP3 InsertP.
Open Scope R_scope.

Lemma sum_list_seq f n : sum_list (map f (seq 0 n)) = Rsum f n.
Proof. rewrite sum_list_spec. reflexivity. Qed.
Lemma dot_prefix_spec L U i k m : dot_prefix L U i k m = Rsum (fun j => entry L i j * entry U j k) m.
Proof. apply sum_list_seq. Qed.
Lemma mget_entry M i j : mget M i j = entry M i j. Proof. reflexivity. Qed.

Definition shape (n : nat) (M : matrix) : Prop := length M = n /\ forall i, (i < n)%nat -> length (nth i M []) = n.
Lemma mset_shape n M i j x : (i < n)%nat -> shape n M -> shape n (mset M i j x).
Proof.
  intros Hi [HL HR]. unfold mset. split; [rewrite set_nth_length; assumption|]. intros i' Hi'.
  destruct (Nat.eq_dec i i') as [<-|]; [rewrite set_nth_eq by lia; rewrite set_nth_length; auto|rewrite set_nth_ne by assumption; auto].
Qed.
Lemma mset_eq n M i j x : shape n M -> (i < n)%nat -> (j < n)%nat -> entry (mset M i j x) i j = x.
Proof. intros [HL HR] Hi Hj. unfold entry, mset. rewrite set_nth_eq by lia. apply set_nth_eq. rewrite HR; assumption. Qed.
Lemma mset_ne n M i j x a b : shape n M -> (i < n)%nat -> (a, b) <> (i, j) -> entry (mset M i j x) a b = entry M a b.
Proof.
  intros [HL HR] Hi Hne. unfold entry, mset. destruct (Nat.eq_dec i a) as [<-|]; [|rewrite set_nth_ne by assumption; reflexivity].
  rewrite set_nth_eq by lia. apply set_nth_ne. congruence.
Qed.
Lemma zero_shape n : shape n (zero_matrix n).
Proof.
  split; [apply repeat_length|]. intros i Hi. unfold zero_matrix. rewrite nth_repeat_lt by assumption. apply repeat_length.
Qed.
Lemma zero_entry n i j : entry (zero_matrix n) i j = 0.
Proof.
  unfold entry, zero_matrix. destruct (lt_dec i n).
  - rewrite nth_repeat_lt by assumption. destruct (lt_dec j n); [apply nth_repeat_lt; assumption|apply nth_overflow; rewrite repeat_length; lia].
  - rewrite (nth_overflow (repeat _ n)) by (rewrite repeat_length; lia). destruct j; reflexivity.
Qed.

Section LU.
Variables (A : matrix) (n : nat).
Hypothesis HA : square n A.

(** (a, b) has been processed when the loops stand at (i, k). *)
Definition done (i k a b : nat) : Prop := (a <= b < n)%nat /\ ((a < i)%nat \/ (a = i /\ (b < k)%nat)).
Definition eqs (L U : matrix) (a b : nat) : Prop :=
  entry U a b = entry A a b - Rsum (fun j => entry L a j * entry U j b) a /\
  (a = b -> entry L b a = 1) /\
  (a <> b -> entry U a a <> 0 -> entry L b a * entry U a a = entry A b a - Rsum (fun j => entry L b j * entry U j a) a).
Definition linv (i k : nat) (st : matrix * matrix) : Prop :=
  let '(L, U) := st in shape n L /\ shape n U /\
  (forall a b, done i k a b -> eqs L U a b) /\
  (forall a b, ~ done i k a b -> entry U a b = 0 /\ entry L b a = 0).

Lemma step_inv i k st : (i <= k < n)%nat -> linv i k st -> linv i (S k) (doolittle_step A i st k).
Proof.
  intros Hik. destruct st as [L U]. intros (SL & SU & HE & HZ).
  unfold doolittle_step. set (U' := mset U i k _).
  assert (SU' : shape n U') by (apply mset_shape; [lia|assumption]).
  assert (U'eq : entry U' i k = entry A i k - Rsum (fun j => entry L i j * entry U j k) i).
  { unfold U'. rewrite (mset_eq n) by (assumption || lia). rewrite dot_prefix_spec. reflexivity. }
  assert (U'ne : forall a b, (a, b) <> (i, k) -> entry U' a b = entry U a b) by (intros; apply (mset_ne n); auto; lia).
  assert (GEN : forall L', shape n L' -> (forall a b, (a, b) <> (k, i) -> entry L' a b = entry L a b) ->
     (i = k -> entry L' k i = 1) ->
     (i <> k -> entry U' i i <> 0 -> entry L' k i * entry U' i i = entry A k i - Rsum (fun j => entry L k j * entry U' j i) i) ->
     linv i (S k) (L', U')).
  { intros L' SL' Lne L1 L2. split; [assumption|]. split; [assumption|]. split.
    - intros a b [Hab Hd]. destruct (Nat.eq_dec a i) as [->|Ha]; [destruct (Nat.eq_dec b k) as [->|Hb]|].
      + split; [|split].
        * rewrite U'eq. f_equal. apply Rsum_ext. intros j Hj. rewrite Lne by (intros [=]; lia). rewrite U'ne by (intros [=]; lia). reflexivity.
        * intros E. apply L1. lia.
        * intros E Hz. rewrite L2 by assumption. f_equal. apply Rsum_ext. intros j Hj. rewrite Lne by (intros [=]; lia). reflexivity.
      + destruct (HE i b) as (X & Y & Z); [split; lia|]. split; [|split].
        * rewrite U'ne by congruence. rewrite X. f_equal. apply Rsum_ext. intros j Hj. rewrite Lne by (intros [=]; lia). rewrite U'ne by (intros [=]; lia). reflexivity.
        * intros E. rewrite Lne by congruence. auto.
        * intros E Hz. rewrite (U'ne i i) in * by (intros [=]; lia). rewrite Lne by congruence. rewrite Z by assumption. f_equal.
          apply Rsum_ext. intros j Hj. rewrite Lne by (intros [=]; lia). rewrite U'ne by (intros [=]; lia). reflexivity.
      + destruct (HE a b) as (X & Y & Z); [split; lia|]. split; [|split].
        * rewrite U'ne by congruence. rewrite X. f_equal. apply Rsum_ext. intros j Hj. rewrite Lne by (intros [=]; lia). rewrite U'ne by (intros [=]; lia). reflexivity.
        * intros E. rewrite Lne by congruence. auto.
        * intros E Hz. rewrite (U'ne a a) in * by (intros [=]; lia). rewrite Lne by congruence. rewrite Z by assumption. f_equal.
          apply Rsum_ext. intros j Hj. rewrite Lne by (intros [=]; lia). rewrite U'ne by (intros [=]; lia). reflexivity.
    - intros a b Hd. assert (Hne : ~ (a = i /\ b = k)) by (intros [-> ->]; apply Hd; split; lia).
      rewrite U'ne by (intros [=]; tauto). rewrite Lne by (intros [=]; tauto). apply HZ. intros [H1 H2]. apply Hd. split; [assumption|lia]. }
  destruct (Nat.eqb_spec i k) as [E|E].
  - subst k. apply GEN.
    + apply mset_shape; [lia|assumption].
    + intros a b Hne. apply (mset_ne n); auto; lia.
    + intros _. apply (mset_eq n); auto; lia.
    + intros; lia.
  - apply GEN.
    + apply mset_shape; [lia|assumption].
    + intros a b Hne. apply (mset_ne n); auto; lia.
    + intros; lia.
    + intros _ Hz. rewrite (mset_eq n) by (auto; lia). rewrite !mget_entry.
      destruct (Reqb _ 0) eqn:EZ; [apply Reqb_spec in EZ; contradiction|].
      rewrite dot_prefix_spec. unfold Rdiv. rewrite Rmult_assoc.
      match goal with |- _ * (/ ?z * ?w) = _ => change z with (entry U' i i); change w with (entry U' i i) end.
      rewrite Rinv_l by assumption. apply Rmult_1_r.
Qed.
Lemma inner_inv i : forall m k st, (i <= k)%nat -> (k + m = n)%nat -> linv i k st -> linv i n (fold_left (doolittle_step A i) (seq k m) st).
Proof.
  induction m; intros k st Hk Hm H; cbn [seq fold_left]; [replace n with k by lia; assumption|].
  apply IHm; try lia. apply step_inv; [lia|assumption].
Qed.
Lemma next_row i st : linv i n st -> linv (S i) (S i) st.
Proof.
  destruct st as [L U]. intros (SL & SU & HE & HZ). split; [assumption|]. split; [assumption|]. split.
  - intros a b [H1 H2]. apply HE. split; lia.
  - intros a b H. apply HZ. intros [H1 H2]. apply H. split; lia.
Qed.
Lemma doolittle_inv : linv n n (doolittle A).
Proof.
  destruct HA as [HL _]. unfold doolittle. rewrite HL.
  assert (G : forall m i st, (i + m = n)%nat -> linv i i st -> linv n n (fold_left (fun st i => fold_left (doolittle_step A i) (seq i (n - i)) st) (seq i m) st)).
  { induction m; intros i st Hm H; cbn [seq fold_left]; [replace n with i by lia; assumption|].
    apply IHm; [lia|]. apply next_row. apply inner_inv; [lia|lia|assumption]. }
  apply G; [lia|]. split; [apply zero_shape|]. split; [apply zero_shape|]. split.
  - intros a b [H1 H2]. lia.
  - intros. split; apply zero_entry.
Qed.

Lemma shape_square M : shape n M -> square n M.
Proof. intros [HL HR]. split; [assumption|]. intros row Hr. destruct (In_nth M row [] Hr) as (i & Hi & <-). apply HR. lia. Qed.

Lemma lu_spec : exists L U, lu_decomposition A = Ok (L, U) /\ square n L /\ square n U /\
  lower_triangular n L /\ upper_triangular n U /\ (forall i, (i < n)%nat -> entry L i i = 1) /\
  ((forall i, (i + 1 < n)%nat -> entry U i i <> 0) -> product_is n L U A).
Proof.
  unfold lu_decomposition. assert (forallb (fun row => (length row =? length A)%nat) A = true) as ->.
  { apply forallb_forall. intros row Hr. destruct HA as [HL HR]. apply Nat.eqb_eq. rewrite HL. apply HR. assumption. }
  pose proof doolittle_inv as HI. destruct (doolittle A) as [L U]. destruct HI as (SL & SU & HE & HZ).
  exists L, U. split; [reflexivity|]. split; [apply shape_square; assumption|]. split; [apply shape_square; assumption|].
  assert (LT : forall i j, (i < j)%nat -> entry L i j = 0) by (intros i j Hij; apply (HZ j i); intros [? ?]; lia).
  assert (UT : forall i j, (j < i)%nat -> entry U i j = 0) by (intros i j Hij; apply (HZ i j); intros [? ?]; lia).
  assert (D1 : forall i, (i < n)%nat -> entry L i i = 1) by (intros i Hi; destruct (HE i i) as (_ & Y & _); [split; lia|auto]).
  split; [intros i j Hij; apply LT; lia|]. split; [intros i j Hij; apply UT; lia|]. split; [assumption|].
  intros Hpiv i j Hi Hj. destruct (le_dec i j) as [Hle|Hgt].
  - replace n with (i + (1 + (n - i - 1)))%nat by lia. rewrite !Rsum_split. rewrite (Rsum_S _ 0), Rsum_0.
    rewrite (Rsum_zero (fun q => entry L i (i + (1 + q)) * entry U (i + (1 + q)) j)); [|intros q Hq; rewrite LT by lia; ring].
    destruct (HE i j) as (X & _ & _); [split; lia|]. rewrite Nat.add_0_r, D1 by assumption. rewrite X. ring.
  - replace n with (j + (1 + (n - j - 1)))%nat by lia. rewrite !Rsum_split. rewrite (Rsum_S _ 0), Rsum_0.
    rewrite (Rsum_zero (fun q => entry L i (j + (1 + q)) * entry U (j + (1 + q)) j)); [|intros q Hq; rewrite UT by lia; ring].
    destruct (HE j i) as (_ & _ & Z); [split; lia|]. rewrite Nat.add_0_r. rewrite Z; [ring|lia|apply Hpiv; lia].
Qed.
End LU.

Lemma lu_not_square A : (exists row, In row A /\ length row <> length A) -> lu_decomposition A = Err ValueError.
Proof.
  intros (row & Hr & Hne). unfold lu_decomposition. destruct (forallb _ A) eqn:E; [|reflexivity].
  rewrite forallb_forall in E. specialize (E row Hr). apply Nat.eqb_eq in E. contradiction.
Qed.

(** ** Triangular solves *)
Lemma Rsum_prefix f g k : (forall j, (j < k)%nat -> f j = g j) -> Rsum f k = Rsum g k.
Proof. intros. apply Rsum_ext. assumption. Qed.
Lemma forward_loop_spec L b : forall todo i y, length y = (i + todo)%nat ->
  (forall j, (i <= j < i + todo)%nat -> mget L j j <> 0) ->
  (forall j, (j < i)%nat -> Rsum (fun q => entry L j q * nth q y 0) (S j) = nth j b 0) ->
  exists y', forward_loop L b i todo y = Ok y' /\ length y' = length y /\ (forall j, (j < i + todo)%nat -> Rsum (fun q => entry L j q * nth q y' 0) (S j) = nth j b 0).
Proof.
  induction todo; intros i y HL Hd HI; cbn [forward_loop].
  - exists y. split; [reflexivity|]. split; [reflexivity|]. intros j Hj. apply HI. lia.
  - destruct (Reqb (mget L i i) 0) eqn:E; [apply Reqb_spec in E; exfalso; apply (Hd i); [lia|assumption]|].
    set (v := _ / _). destruct (IHtodo (S i) (set_nth y i v)) as (y' & A1 & A2 & A3).
    + rewrite set_nth_length. lia.
    + intros j Hj. apply Hd. lia.
    + intros j Hj. destruct (Nat.eq_dec j i) as [->|].
      * rewrite Rsum_S. rewrite set_nth_eq by lia.
        rewrite (Rsum_ext _ (fun q => entry L i q * nth q y 0)) by (intros q Hq; rewrite set_nth_ne by lia; reflexivity).
        unfold v. rewrite sum_list_seq. change (entry L i i) with (mget L i i). field_simplify; [|apply Hd; lia].
        unfold mget, entry. ring.
      * rewrite (Rsum_ext _ (fun q => entry L j q * nth q y 0)) by (intros q Hq; rewrite set_nth_ne by lia; reflexivity). apply HI. lia.
    + exists y'. rewrite set_nth_length in A2. split; [assumption|]. split; [assumption|]. intros j Hj. apply A3. lia.
Qed.
Lemma forward_spec n L b : (0 < n)%nat -> square n L -> lower_triangular n L -> (forall i, (i < n)%nat -> entry L i i <> 0) -> length b = n ->
  exists y, forward_substitution L b = Ok y /\ solves n L y b.
Proof.
  intros Hn HL HT Hd Hb. unfold forward_substitution. destruct b as [|b0 b']; [cbn in Hb; lia|]. rewrite Hb.
  destruct (forward_loop_spec L (b0 :: b') n 0 (repeat 0 n)) as (y & A1 & A2 & A3); [rewrite repeat_length; lia|intros j Hj; apply Hd; lia|intros; lia|].
  exists y. split; [assumption|]. rewrite repeat_length in A2. split; [assumption|]. intros i Hi. rewrite <- A3 by lia.
  replace n with (S i + (n - S i))%nat by lia. rewrite Rsum_split. rewrite (Rsum_zero _ (n - S i)); [ring|].
  intros q Hq. rewrite HT by lia. ring.
Qed.
Lemma backward_loop_spec U y q : forall todo x, length x = q -> (todo <= q)%nat ->
  (forall j, (j < todo)%nat -> mget U j j <> 0) -> (forall j, (j < todo)%nat -> nth j x 0 = 0) ->
  (forall j, (todo <= j < q)%nat -> Rsum (fun k => entry U j (j + k) * nth (j + k) x 0) (q - j) = nth j y 0) ->
  exists x', backward_loop U y q todo x = Ok x' /\ length x' = q /\
   (forall j, (j < q)%nat -> Rsum (fun k => entry U j (j + k) * nth (j + k) x' 0) (q - j) = nth j y 0).
Proof.
  induction todo as [|i]; intros x HL Hq Hd Hz HI; cbn [backward_loop].
  - exists x. split; [reflexivity|]. split; [assumption|]. intros j Hj. apply HI. lia.
  - destruct (Reqb (mget U i i) 0) eqn:E; [apply Reqb_spec in E; exfalso; apply (Hd i); [lia|assumption]|].
    set (v := _ / _). destruct (IHi (set_nth x i v)) as (x' & A1 & A2 & A3).
    + rewrite set_nth_length. assumption.
    + lia.
    + intros j Hj. apply Hd. lia.
    + intros j Hj. rewrite set_nth_ne by lia. apply Hz. lia.
    + intros j Hj. destruct (Nat.eq_dec j i) as [->|].
      * replace (q - i)%nat with (S (q - S i)) by lia. rewrite Rsum_S_l. rewrite Nat.add_0_r, set_nth_eq by lia.
        rewrite (Rsum_ext _ (fun k => entry U i (i + S k) * nth (i + S k) x 0)) by (intros k Hk; rewrite set_nth_ne by lia; reflexivity).
        unfold v. rewrite sum_list_spec.
        assert (ES : fold_right Rplus 0 (map (fun j => mget U i j * nth j x 0) (seq i (q - i))) = Rsum (fun k => entry U i (i + S k) * nth (i + S k) x 0) (q - S i)).
        { replace (q - i)%nat with (S (q - S i)) by lia. cbn [seq map fold_right]. rewrite (Hz i) by lia. rewrite Rmult_0_r, Rplus_0_l.
          rewrite <- (seq_add_map (S i) (q - S i)), map_map. unfold Rsum. f_equal. apply map_ext. intros a. rewrite !mget_entry. replace (i + S a)%nat with (S i + a)%nat by lia. reflexivity. }
        rewrite ES. change (mget U i i) with (entry U i i). assert (entry U i i <> 0) by (apply (Hd i); lia). field. assumption.
      * rewrite (Rsum_ext _ (fun k => entry U j (j + k) * nth (j + k) x 0)) by (intros k Hk; rewrite set_nth_ne by lia; reflexivity). apply HI. lia.
    + exists x'. auto.
Qed.
Lemma backward_spec n U y : (0 < n)%nat -> square n U -> upper_triangular n U -> (forall i, (i < n)%nat -> entry U i i <> 0) -> length y = n ->
  exists x, backward_substitution U y = Ok x /\ solves n U x y.
Proof.
  intros Hn HU HT Hd Hb. unfold backward_substitution. destruct y as [|y0 y']; [cbn in Hb; lia|]. rewrite Hb.
  destruct (backward_loop_spec U (y0 :: y') n n (repeat 0 n)) as (x & A1 & A2 & A3).
  - apply repeat_length.
  - lia.
  - intros j Hj. apply Hd. assumption.
  - intros j Hj. apply nth_repeat_lt. assumption.
  - intros; lia.
  - exists x. split; [assumption|]. split; [assumption|]. intros i Hi. rewrite <- A3 by lia.
    replace n with (i + (n - i))%nat at 1 by lia. rewrite Rsum_split. rewrite (Rsum_zero _ i); [ring|].
    intros q Hq. rewrite HT by lia. ring.
Qed.

Lemma Rsum_swap (f : nat -> nat -> R) n m : Rsum (fun i => Rsum (fun j => f i j) m) n = Rsum (fun j => Rsum (fun i => f i j) n) m.
Proof.
  induction n; [rewrite Rsum_0; symmetry; apply Rsum_zero; reflexivity|]. rewrite Rsum_S, IHn, <- Rsum_plus. apply Rsum_ext. intros. rewrite Rsum_S. reflexivity.
Qed.
Lemma lu_solve n A b : (0 < n)%nat -> square n A -> length b = n ->
  (forall L U, lu_decomposition A = Ok (L, U) -> forall i, (i < n)%nat -> entry U i i <> 0) ->
  exists L U y x, lu_decomposition A = Ok (L, U) /\ forward_substitution L b = Ok y /\ backward_substitution U y = Ok x /\ solves n A x b.
Proof.
  intros Hn HA Hb Hp. destruct (lu_spec A n HA) as (L & U & E & SL & SU & LT & UT & D1 & HP).
  pose proof (Hp L U E) as Hpiv. specialize (HP ltac:(intros; apply Hpiv; lia)).
  destruct (forward_spec n L b) as (y & Ey & Ly & Sy); auto; [intros i Hi; rewrite D1 by assumption; lra|].
  destruct (backward_spec n U y) as (x & Ex & Lx & Sx); auto.
  exists L, U, y, x. split; [assumption|]. split; [assumption|]. split; [assumption|]. split; [assumption|].
  intros i Hi. rewrite <- Sy by assumption.
  rewrite (Rsum_ext (fun j => entry A i j * nth j x 0) (fun j => Rsum (fun k => entry L i k * entry U k j * nth j x 0) n)).
  2:{ intros j Hj. rewrite <- (HP i j Hi Hj). rewrite <- Rsum_scal_r. reflexivity. }
  rewrite Rsum_swap. apply Rsum_ext. intros k Hk. rewrite <- (Sx k Hk). rewrite <- Rsum_scal. apply Rsum_ext. intros; ring.
Qed.
(** Without pivoting an invertible matrix with a zero pivot is factorised into something else. *)
Lemma lu_zero_pivot : exists A L U, square 2 A /\ entry A 0 0 * entry A 1 1 - entry A 0 1 * entry A 1 0 <> 0 /\
  lu_decomposition A = Ok (L, U) /\ ~ product_is 2 L U A.
Proof.
  exists [[0; 1]; [1; 0]]. destruct (lu_spec [[0; 1]; [1; 0]] 2) as (L & U & E & _).
  { split; [reflexivity|]. intros row [<-|[<-|[]]]; reflexivity. }
  exists L, U. split; [split; [reflexivity|]; intros row [<-|[<-|[]]]; reflexivity|]. split; [unfold entry; cbn; lra|]. split; [assumption|].
  pose proof (doolittle_inv [[0; 1]; [1; 0]] 2) as HI. unfold lu_decomposition in E. cbn [forallb length Nat.eqb andb] in E. apply Ok_inj in E. rewrite E in HI.
  intros HP. pose proof (HP 1%nat 0%nat ltac:(lia) ltac:(lia)) as H10. rewrite !Rsum_S, Rsum_0 in H10.
  destruct HI as (_ & _ & HE & HZ). { split; [reflexivity|]. intros row [<-|[<-|[]]]; reflexivity. }
  destruct (HE 0%nat 0%nat) as (X & _); [split; lia|]. rewrite Rsum_0 in X.
  destruct (HZ 1%nat 0%nat) as [Y _]; [intros [? ?]; lia|]. rewrite Y, X in H10. unfold entry in H10 at 2 4. cbn in H10. unfold entry in H10. cbn in H10. lra.
Qed.
Lemma lu_example : forall L U, lu_decomposition [[2; 1]; [1; 1]] = Ok (L, U) -> forall i, (i < 2)%nat -> entry U i i <> 0.
Proof.
  intros L U E i Hi. assert (HA : square 2 [[2; 1]; [1; 1]]) by (split; [reflexivity|intros r [<-|[<-|[]]]; reflexivity]).
  pose proof (doolittle_inv _ _ HA) as HI. unfold lu_decomposition in E. cbn [forallb length Nat.eqb andb] in E. apply Ok_inj in E. rewrite E in HI.
  destruct HI as (_ & _ & HE & HZ).
  destruct (HE 0%nat 0%nat) as (X & X1 & _); [split; lia|]. rewrite Rsum_0 in X. change (entry [[2; 1]; [1; 1]] 0 0) with 2 in X.
  destruct (HE 0%nat 1%nat) as (Y & _ & Y2); [split; lia|]. rewrite Rsum_0 in Y, Y2. change (entry [[2; 1]; [1; 1]] 0 1) with 1 in Y. change (entry [[2; 1]; [1; 1]] 1 0) with 1 in Y2.
  specialize (Y2 ltac:(lia) ltac:(lra)).
  destruct (HE 1%nat 1%nat) as (Z & _ & _); [split; lia|]. rewrite Rsum_S, Rsum_0 in Z. change (entry [[2; 1]; [1; 1]] 1 1) with 1 in Z.
  destruct i as [|[|i]]; [lra| |lia]. rewrite Z, Y. rewrite X in Y2. lra.
Qed.
