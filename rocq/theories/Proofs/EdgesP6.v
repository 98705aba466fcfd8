(** Segments: sampling between two abscissas. *)
From Verif.Model Require Import Base RBase Vec Frame BBox Geometry Curves Edges.
From Verif.Spec Require Import VecSpec CurvesSpec PlaneSpec EdgesSpec.
From Verif.Proofs Require Import VecP LineP CurvesP EdgesP EdgesP3 EdgesP4.
From Coq Require Import List Lra Lia Psatz.
Import ListNotations.
Open Scope R_scope.

Definition pat s a := seg2 (fst s) (snd s) (a / sg2_length s).
Lemma abscissa_points2_spec s l : proper2 s -> forall pts abs, pts = map (pat s) abs ->
  ForallOrdPairs (fun p q => / 10 ^ 6 < point_distance2 p q) pts ->
  exists abs', abscissa_points2 s l pts abs = Ok (map (pat s) (abs ++ abs'), abs ++ abs') /\
    incl abs' (filter (fun a => negb (Rltb (sg2_length s + / 10 ^ 6) a)) l) /\
    ForallOrdPairs (fun p q => / 10 ^ 6 < point_distance2 p q) (map (pat s) (abs ++ abs')) /\
    (forall a, In a l -> a <= sg2_length s + / 10 ^ 6 -> exists b, In b (abs ++ abs') /\ point_distance2 (pat s a) (pat s b) <= / 10 ^ 6).
Proof.
  intros H. induction l as [|a l IH]; intros pts abs E F.
  - exists []. rewrite app_nil_r. cbn [abscissa_points2 filter]. subst pts. split; [reflexivity|]. split; [apply incl_nil_l|]. split; auto. intros a [].
  - cbn [abscissa_points2 filter]. destruct (Rltb (sg2_length s + / 10 ^ 6) a) eqn:A; rb.
    + destruct (IH pts abs E F) as (abs' & I1 & I2 & I3 & I4). exists abs'. split; auto. split; auto. split; auto.
      intros b [-> | B] L; [lra|]. apply I4; auto.
    + rewrite sg2_pat_param by exact H. cbn [bind]. fold (pat s a). cbn [negb].
      destruct (in_list2 (pat s a) pts (/ 10 ^ 6)) eqn:N.
      * destruct (IH pts abs E F) as (abs' & I1 & I2 & I3 & I4). exists abs'. split; auto. split; [intros b B; right; apply I2, B|]. split; auto.
        intros b [<- | B] L; [|apply I4; auto]. apply in_list2_spec in N as (q & Q1 & Q2); [|apply Rlt_le, pow10_inv_pos].
        rewrite E in Q1. apply in_map_iff in Q1 as (c & <- & C). exists c. split; [apply in_or_app; auto|auto].
      * assert (F' : ForallOrdPairs (fun p q => / 10 ^ 6 < point_distance2 p q) (pts ++ [pat s a])).
        { assert (G : forall q, In q pts -> / 10 ^ 6 < point_distance2 q (pat s a)).
          { intros q Q. apply Rnot_le_lt. intros D. rewrite dist2_sym in D.
            rewrite (proj2 (in_list2_spec (pat s a) pts (/ 10 ^ 6) (Rlt_le _ _ (pow10_inv_pos 6)))) in N; [discriminate|]. exists q. auto. }
          clear -F G. induction F as [|p pts F1 F2 IH].
          - constructor; constructor.
          - cbn [app]. constructor.
            + apply Forall_app. split; auto. constructor; [|constructor]. apply G. left; auto.
            + apply IH. intros q Q. apply G. right; auto. }
        destruct (IH (pts ++ [pat s a]) (abs ++ [a])) as (abs' & I1 & I2 & I3 & I4); [subst pts; rewrite map_app; reflexivity|exact F'|].
        exists (a :: abs'). rewrite <- app_assoc in I1, I3, I4. cbn [app] in I1, I3, I4. split; [exact I1|]. split.
        { intros b [<- | B]; [left; auto|right; apply I2, B]. }
        split; auto. intros b [<- | B] L; [|apply I4; auto]. exists a. split; [apply in_or_app; right; left; auto|].
        rewrite (proj2 (dist2_zero _ _) eq_refl). apply Rlt_le, pow10_inv_pos.
Qed.
Lemma linspace_in a b n x : In x (linspace a b n) <-> (exists i, (i < n)%nat /\ x = a + INR i * ((b - a) / INR (n - 1))).
Proof.
  destruct n as [|[|n]].
  - cbn [linspace]. split; [intros []|intros (i & I & _); lia].
  - cbn [linspace]. split.
    + intros [<- | []]. exists 0%nat. split; [lia|]. cbn [INR]. ring.
    + intros (i & I & ->). left. replace i with 0%nat by lia. cbn [INR]. ring.
  - unfold linspace. rewrite in_map_iff. split.
    + intros (i & <- & I). apply in_seq in I. exists i. split; [lia|auto].
    + intros (i & I & ->). exists i. split; [auto|]. apply in_seq. lia.
Qed.
Lemma linspace_range a b n x len : 0 <= a <= len -> 0 <= b <= len -> In x (linspace a b n) -> 0 <= x <= len.
Proof.
  intros A B I. apply linspace_in in I as (i & I & ->). destruct (Nat.eq_dec n 1) as [->|N].
  - replace i with 0%nat by lia. cbn [INR]. lra.
  - assert (M : 0 < INR (n - 1)) by (apply lt_0_INR; lia).
    assert (K : 0 <= INR i / INR (n - 1) <= 1).
    { split; [apply Rmult_le_pos; [apply pos_INR|apply Rlt_le, Rinv_0_lt_compat, M]|].
      apply Rmult_le_reg_r with (INR (n - 1)); auto. unfold Rdiv. rewrite Rmult_assoc, Rinv_l by lra. rewrite Rmult_1_r, Rmult_1_l. apply le_INR. lia. }
    replace (a + INR i * ((b - a) / INR (n - 1))) with (a + (b - a) * (INR i / INR (n - 1))) by (field; lra).
    revert K. generalize (INR i / INR (n - 1)). intros k K. nra.
Qed.
(** the points sampled between two abscissas of the segment: points of the segment at regularly spaced abscissas,
    more than 1e-6 apart; every regularly spaced abscissa is within 1e-6 of a sampled point *)
Lemma sg2_abscissa_discretization_spec s a1 a2 n : proper2 s -> 0 <= a1 <= sg2_length s -> 0 <= a2 <= sg2_length s ->
  exists pts abs, sg2_abscissa_discretization s a1 a2 n = Ok (pts, abs) /\
    length pts = length abs /\
    (forall p, In p pts -> on_segment2 s p) /\
    (forall i d, (i < length abs)%nat -> sg2_point_at_abscissa s (nth i abs 0) = Ok (nth i pts d)) /\
    (forall a, In a abs -> exists i, (i < n)%nat /\ a = a1 + INR i * ((a2 - a1) / INR (n - 1))) /\
    ForallOrdPairs (fun p q => / 10 ^ 6 < point_distance2 p q) pts /\
    (forall i, (i < n)%nat -> exists p q, sg2_point_at_abscissa s (a1 + INR i * ((a2 - a1) / INR (n - 1))) = Ok p /\ In q pts /\ point_distance2 p q <= / 10 ^ 6).
Proof.
  intros H A1 A2. unfold sg2_abscissa_discretization.
  destruct (abscissa_points2_spec s (linspace a1 a2 n) H [] [] eq_refl (FOP_nil _)) as (abs & E & I1 & I2 & I3). cbn [app] in *.
  exists (map (pat s) abs), abs. split; [exact E|]. split; [apply map_length|].
  assert (R : forall a, In a abs -> In a (linspace a1 a2 n)). { intros a A. apply I1 in A. apply filter_In in A. tauto. }
  pose proof (sg2_length_pos s H) as L.
  split.
  { intros p P. apply in_map_iff in P as (a & <- & A). apply R in A. apply (linspace_range a1 a2 n a (sg2_length s)) in A; auto.
    apply on_seg2_intro. split; [apply Rmult_le_pos; [lra|apply Rlt_le, Rinv_0_lt_compat, L]|].
    apply Rmult_le_reg_r with (sg2_length s); auto. unfold Rdiv. rewrite Rmult_assoc, Rinv_l by lra. lra. }
  split.
  { intros i d I. rewrite sg2_pat_param by exact H. rewrite (nth_indep _ d (pat s 0)) by (rewrite map_length; auto). rewrite map_nth. reflexivity. }
  split; [intros a A; apply linspace_in, R, A|]. split; [exact I2|].
  intros i I. set (a := a1 + INR i * ((a2 - a1) / INR (n - 1))). rewrite sg2_pat_param by exact H.
  assert (J : In a (linspace a1 a2 n)) by (apply linspace_in; exists i; auto).
  pose proof (linspace_range a1 a2 n a _ A1 A2 J). destruct (I3 a J) as (b & B1 & B2); [pose proof (pow10_inv_pos 6); lra|].
  exists (pat s a), (pat s b). split; [reflexivity|]. split; auto. apply in_map_iff. exists b. auto.
Qed.
