From Coq Require Import Reals Lra Lia List Bool Arith.
From Verif.Model Require Import Base RBase Vec Geometry Curves Edges PolyTurn.
From Verif.Spec Require Import PolyTurnSpec.
From Verif.Proofs Require Import VecP PolyTurnP.
Import ListNotations.
Open Scope R_scope.

Lemma parallel_not_met : forall pts s1 s2, 
  cross2 (sub2 (nth (snd s1) pts O2D) (nth (fst s1) pts O2D)) (sub2 (nth (snd s2) pts O2D) (nth (fst s2) pts O2D)) = 0 -> segments_intersect pts s1 s2 <> Ok true.
Proof.
  intros pts s1 s2 C. unfold segments_intersect, segment2.
  destruct (eqb2 (nth (fst s1) pts O2D) (nth (snd s1) pts O2D)); [discriminate|].
  destruct (eqb2 (nth (fst s2) pts O2D) (nth (snd s2) pts O2D)); [discriminate|]. cbn [bind].
  destruct (nth (fst s1) pts O2D) as [a1 b1], (nth (snd s1) pts O2D) as [a2 b2], (nth (fst s2) pts O2D) as [a3 b3], (nth (snd s2) pts O2D) as [a4 b4].
  unfold line_intersection. unfold cross2, sub2 in C. cbn [x2 y2] in C. replace ((a1 - a2) * (b3 - b4) - (b1 - b2) * (a3 - a4)) with 0 by lra.
  assert (T : 0 <= / 10 ^ 15) by (apply Rlt_le, pow10_inv_pos). rewrite (proj2 (isclose_0 0 _ T)); [discriminate|]. rewrite Rabs_R0. exact T.
Qed.
Lemma first_of_found {A B} (f : A -> res (option B)) l b : first_of f l = Ok (Some b) -> exists a, In a l /\ f a = Ok (Some b).
Proof.
  induction l as [|a l IH]; [discriminate|]. cbn [first_of]. destruct (f a) as [[c|]|] eqn:E; cbn [bind]; [intros [= ->]; exists a; split; [left; reflexivity|exact E]| |discriminate].
  intros H. destruct (IH H) as (a' & I' & E'). exists a'. split; [right; exact I'|exact E'].
Qed.
Lemma sorted_range pts : forall i, In i (sorted_index pts) -> (i < length pts)%nat.
Proof.
  unfold sorted_index. assert (IN : forall i l j, In j (insert pts i l) -> j = i \/ In j l).
  { intros i l'. induction l' as [|k l' IH]; cbn [insert]; intros j; [intros [->|[]]; auto|]. destruct (key_lt _ _); cbn [In]; [intros [->|Hj]; [auto|apply IH in Hj; tauto]|intros [->|Hj]; [left; reflexivity|right; exact Hj]]. }
  assert (F : forall l' i, In i (fold_right (insert pts) [] l') -> In i l'). { induction l' as [|k l' IH]; intros i Hi; [exact Hi|]. cbn [fold_right] in Hi. apply IN in Hi as [->|Hi]; [left; reflexivity|right; auto]. }
  intros i Hi. apply F in Hi. apply in_seq in Hi. lia.
Qed.
Lemma aligned_never_meet : forall pts o d, (forall p, In p pts -> exists t, p = add2 o (mul2 d t)) -> forall s, self_intersects pts <> Ok (Some s).
Proof.
  intros pts o d H s E. unfold self_intersects in E. destruct (get_segments pts) as [l|] eqn:G; [|discriminate E]. cbn [bind] in E.
  apply first_of_found in E as (s1 & I1 & E). apply first_of_found in E as (s2 & I2 & E). destruct (_ && _); [discriminate E|].
  destruct (segments_intersect pts s1 s2) as [[|]|] eqn:Q; cbn [bind] in E; try discriminate E. revert Q. 
  assert (P : forall k, (exists t, nth k pts O2D = add2 o (mul2 d t)) \/ (length pts <= k)%nat).
  { intros k. destruct (Nat.lt_ge_cases k (length pts)) as [K|K]; [left; apply H, nth_In, K|right; exact K]. }
  assert (RG : forall l' n s, get_segments_from (sorted_index pts) n l' = Ok l -> In s l -> (forall i, In i l' -> (i < length pts)%nat) -> (fst s < length pts)%nat /\ (snd s < length pts)%nat).
  { clear. pose proof (sorted_range pts) as SI.
    intros l'. revert l. induction l' as [|i l' IH]; intros l n s E Il B; [cbn in E; injection E as <-; destruct Il|]. cbn [get_segments_from] in E.
    destruct (segments_at (sorted_index pts) n i) as [u|] eqn:U; [|discriminate E]. cbn [bind] in E. destruct (get_segments_from (sorted_index pts) (S n) l') as [v|] eqn:V; [|discriminate E]. cbn [bind] in E. injection E as <-.
    apply in_app_or in Il as [Il|Il]; [|apply (IH v (S n) s V Il); intros; apply B; right; assumption]. assert (Bi := B i (or_introl eq_refl)).
    unfold segments_at, at_index in U.
    assert (N : forall k a, nth_error (sorted_index pts) k = Some a -> (a < length pts)%nat) by (intros k a Hk; apply SI; eapply nth_error_In, Hk).
    destruct (i =? 0)%nat; cbn [bind] in U.
    - assert (L : (length (sorted_index pts) - 1 < length pts)%nat).
      { assert (LI : forall i0 l0, length (insert pts i0 l0) = S (length l0)) by (intros i0 l0; induction l0 as [|k l0 IH0]; cbn [insert]; [reflexivity|destruct (key_lt _ _); cbn [length]; [rewrite IH0|]; reflexivity]).
        unfold sorted_index. assert (LF : forall l0, length (fold_right (insert pts) [] l0) = length l0) by (induction l0 as [|k l0 IH0]; [reflexivity|cbn [fold_right length]; rewrite LI, IH0; reflexivity]). rewrite LF, seq_length. lia. }
      destruct (_ <=? _)%nat; cbn [bind] in U; [injection U as <-|destruct (nth_error (sorted_index pts) (n + 1)) eqn:W; [|discriminate U]; cbn [bind] in U; injection U as <-];
        destruct Il as [<-|[<-|[]]]; cbn [fst snd]; split; try assumption; try lia. eapply N, W.
    - destruct (nth_error (sorted_index pts) _) eqn:W0 in U; [|discriminate U]. cbn [bind] in U. apply N in W0.
      destruct (_ <=? _)%nat; cbn [bind] in U; [injection U as <-|destruct (nth_error (sorted_index pts) (n + 1)) eqn:W; [|discriminate U]; cbn [bind] in U; injection U as <-];
        destruct Il as [<-|[<-|[]]]; cbn [fst snd]; split; try assumption; try lia. eapply N, W. }
  unfold get_segments in G. pose proof (sorted_range pts) as SI.
  destruct (RG _ _ _ G I1 SI) as [A1 A2]. destruct (RG _ _ _ G I2 SI) as [A3 A4].
  destruct (P (fst s1)) as [[t1 T1]|]; [|lia]. destruct (P (snd s1)) as [[t2 T2]|]; [|lia]. destruct (P (fst s2)) as [[t3 T3]|]; [|lia]. destruct (P (snd s2)) as [[t4 T4]|]; [|lia].
  apply parallel_not_met. rewrite T1, T2, T3, T4. unfold cross2, sub2, add2, mul2. cbn [x2 y2]. ring.
Qed.
Lemma no_points : is_convex [] = Err IndexError /\ is_trigo [] = Ok true.
Proof. split; reflexivity. Qed.
