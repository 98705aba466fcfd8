From Coq Require Import List Arith Bool Reals Lra Lia Psatz.
From Verif.Model Require Import RBase Vec Geometry Curves Edges PolyTurn.
From Verif.Spec Require Import AngleSpec PolyTurnSpec.
From Verif.Proofs Require Import VecP GeometryP ParamSurfP ParamSurfP6.
Import ListNotations.
Open Scope R_scope.

(** the sides *)
Lemma eqb2_iff p q : eqb2 p q = true <-> p = q.
Proof. unfold eqb2. rewrite andb_true_iff, !Reqb_spec. destruct p, q; cbn. split; [intros [-> ->]; reflexivity|intros [= -> ->]; auto]. Qed.
Lemma filter_all {A} (f : A -> bool) l : (forall a, In a l -> f a = true) -> filter f l = l.
Proof. induction l as [|a l IH]; intros H; [reflexivity|]. cbn [filter]. rewrite (H a (or_introl eq_refl)), IH; [reflexivity|]. intros b B. apply H. right. exact B. Qed.
Lemma nth_roll {A} (a d : A) l i : (i < S (length l))%nat -> nth i (l ++ [a]) d = nth (S i mod S (length l)) (a :: l) d.
Proof.
  intros H. destruct (Nat.eq_dec i (length l)) as [->|N].
  - rewrite Nat.mod_same by lia. rewrite app_nth2, Nat.sub_diag by lia. reflexivity.
  - rewrite Nat.mod_small by lia. rewrite app_nth1 by lia. reflexivity.
Qed.
Definition seg (pts : list vec2) i : vec2 * vec2 := (corner pts i, corner pts (S i)).
Lemma list_eq {A} (d : A) l m : length l = length m -> (forall i, (i < length l)%nat -> nth i l d = nth i m d) -> l = m.
Proof. intros. apply nth_ext with d d; assumption. Qed.
Lemma segments_eq pts : no_repeat pts -> (2 <= length pts)%nat -> line_segments pts = map (seg pts) (seq 0 (length pts)).
Proof.
  intros NR L. unfold line_segments. destruct pts as [|p [|q rest]]; [cbn in L; lia|cbn in L; lia|]. set (pts := p :: q :: rest) in *.
  assert (E : combine pts ((q :: rest) ++ [p]) = map (seg pts) (seq 0 (length pts))).
  { apply (list_eq (O2D, O2D)).
    - rewrite combine_length, app_length, map_length, seq_length. unfold pts. cbn [length]. lia.
    - intros i H. rewrite combine_length in H. apply Nat.min_glb_lt_iff in H as [Hi _].
      rewrite combine_nth by (rewrite app_length; cbn; lia). rewrite (nth_indep _ _ (seg pts 0)) by (rewrite map_length, seq_length; exact Hi).
      rewrite map_nth, seq_nth by exact Hi. rewrite Nat.add_0_l. unfold seg, corner. f_equal; [rewrite Nat.mod_small by exact Hi; reflexivity|].
      rewrite nth_roll by (cbn in Hi |- *; lia). reflexivity. }
  rewrite E. apply filter_all. intros s H. apply in_map_iff in H as (i & <- & H). cbn [fst snd seg]. apply negb_true_iff.
  destruct (eqb2 _ _) eqn:Q; [|reflexivity]. apply eqb2_iff in Q. exfalso. apply (NR i). symmetry. exact Q.
Qed.
Lemma corner_mod pts i : corner pts (i mod length pts) = corner pts i.
Proof. unfold corner. destruct pts as [|p pts]; [destruct i; reflexivity|]. rewrite Nat.mod_mod by (cbn; lia). reflexivity. Qed.
Lemma corner_mod_S pts i : corner pts (S (i mod length pts)) = corner pts (S i).
Proof. unfold corner. destruct pts as [|p pts]; [destruct i; reflexivity|]. f_equal. change (S (i mod length (p :: pts))) with (1 + i mod length (p :: pts))%nat. rewrite Nat.add_mod_idemp_r by (cbn; lia). reflexivity. Qed.
Lemma seg_mod pts i : seg pts (i mod length pts) = seg pts i.
Proof. unfold seg. rewrite corner_mod, corner_mod_S. reflexivity. Qed.
Lemma pairs_eq pts : no_repeat pts -> (2 <= length pts)%nat -> exists next, followers (line_segments pts) = Ok next /\
  combine (line_segments pts) next = map (fun i => (seg pts i, seg pts (S i))) (seq 0 (length pts)).
Proof.
  intros NR L. rewrite (segments_eq _ NR L). set (n := length pts) in *. destruct n as [|n'] eqn:En; [lia|]. rewrite <- En in *.
  assert (F : map (seg pts) (seq 0 n) = seg pts 0 :: map (seg pts) (seq 1 n')) by (rewrite En; reflexivity).
  exists (map (seg pts) (seq 1 n') ++ [seg pts 0]). rewrite F at 1. split; [reflexivity|].
  apply (list_eq ((O2D, O2D), (O2D, O2D))).
  - rewrite combine_length, app_length, !map_length, !seq_length. cbn. lia.
  - intros i H. rewrite combine_length, app_length, !map_length, !seq_length in H. cbn [length] in H. assert (Hi : (i < n)%nat) by lia.
    rewrite combine_nth by (rewrite app_length, !map_length, !seq_length; cbn; lia).
    rewrite (nth_indep (map _ _) ((O2D, O2D), (O2D, O2D)) (seg pts 0, seg pts 1)) by (rewrite map_length, seq_length; exact Hi).
    rewrite (map_nth (fun i => (seg pts i, seg pts (S i)))), seq_nth by exact Hi. rewrite Nat.add_0_l. f_equal.
    + rewrite (nth_indep _ _ (seg pts 0)) by (rewrite map_length, seq_length; exact Hi). rewrite map_nth, seq_nth by exact Hi. reflexivity.
    + rewrite nth_roll by (rewrite map_length, seq_length; lia). rewrite map_length, seq_length, <- En. rewrite <- F.
      rewrite (nth_indep _ _ (seg pts 0)) by (rewrite map_length, seq_length; apply Nat.mod_upper_bound; lia).
      rewrite map_nth, seq_nth by (apply Nat.mod_upper_bound; lia). rewrite Nat.add_0_l. apply seg_mod.
Qed.

(** the angle at a corner *)
Lemma norm_pos_ne v : v <> V2 0 0 -> 0 < norm2 v.
Proof. intros H. pose proof (norm2_pos v). destruct (Req_dec (norm2 v) 0) as [E|]; [apply norm2_zero in E; contradiction|lra]. Qed.
Lemma unit_ok v : v <> V2 0 0 -> unit_vector2 v = Ok (V2 (x2 v / norm2 v) (y2 v / norm2 v)).
Proof. intros H. unfold unit_vector2. assert (Reqb (norm2 v) 0 = false) as ->; [|reflexivity]. apply Reqb_false. pose proof (norm_pos_ne v H). lra. Qed.
Lemma turn_angle_eq d e s1 s2 : dir2 s1 = d -> dir2 s2 = e -> d <> V2 0 0 -> e <> V2 0 0 ->
  turn_angle s1 s2 = Ok (atan2 (cross2 d e / norm2 e) (dot2 d e / (norm2 d * norm2 e))).
Proof.
  intros D E Hd He. unfold turn_angle. rewrite D, E, (unit_ok d Hd), (unit_ok e He). cbn [bind]. pose proof (norm_pos_ne d Hd). pose proof (norm_pos_ne e He).
  f_equal. f_equal; unfold cross2, dot2, normal_vector2; cbn [x2 y2]; field; lra.
Qed.
Lemma atan2_pos_sign y x : 0 < y -> 0 < atan2 y x.
Proof.
  intros H. unfold atan2. pose proof PI_RGT_0. destruct (Rltb 0 x) eqn:E1; rb.
  - rewrite <- atan_0. apply atan_increasing. apply Rdiv_lt_0_compat; assumption.
  - destruct (Rltb x 0) eqn:E2; rb.
    + assert (Rleb 0 y = true) as -> by (apply Rleb_spec; lra). pose proof (atan_bound (y / x)). lra.
    + assert (Rltb 0 y = true) as -> by (apply Rltb_spec; lra). lra.
Qed.
Lemma atan2_neg_sign y x : y < 0 -> atan2 y x < 0.
Proof.
  intros H. unfold atan2. pose proof PI_RGT_0. destruct (Rltb 0 x) eqn:E1; rb.
  - rewrite <- atan_0. apply atan_increasing. assert (0 < / x) by (apply Rinv_0_lt_compat; assumption). unfold Rdiv. nra.
  - destruct (Rltb x 0) eqn:E2; rb.
    + assert (Rleb 0 y = false) as -> by (apply Rleb_false; lra). pose proof (atan_bound (y / x)). lra.
    + assert (Rltb 0 y = false) as -> by (apply Rltb_false; lra). assert (Rltb y 0 = true) as -> by (apply Rltb_spec; lra). lra.
Qed.
Definition angle_of (d e : vec2) : R := atan2 (cross2 d e / norm2 e) (dot2 d e / (norm2 d * norm2 e)).
Lemma angle_left d e : d <> V2 0 0 -> e <> V2 0 0 -> 0 < cross2 d e -> 0 < angle_of d e.
Proof. intros. apply atan2_pos_sign. apply Rdiv_lt_0_compat; [assumption|apply norm_pos_ne; assumption]. Qed.
Lemma angle_right d e : d <> V2 0 0 -> e <> V2 0 0 -> cross2 d e < 0 -> angle_of d e < 0.
Proof. intros D E H. apply atan2_neg_sign. assert (0 < / norm2 e) by (apply Rinv_0_lt_compat, norm_pos_ne; assumption). unfold Rdiv. nra. Qed.
Lemma angle_straight d e : d <> V2 0 0 -> e <> V2 0 0 -> cross2 d e = 0 -> 0 < dot2 d e -> angle_of d e = 0.
Proof.
  intros D E H P. unfold angle_of. rewrite H. replace (0 / norm2 e) with 0 by (unfold Rdiv; ring). apply atan2_0_pos. apply Rdiv_lt_0_compat; [assumption|].
  apply Rmult_lt_0_compat; apply norm_pos_ne; assumption.
Qed.
Lemma parallel d e : d <> V2 0 0 -> e <> V2 0 0 -> cross2 d e = 0 -> 0 < dot2 d e \/ dot2 d e < 0.
Proof.
  intros D E H. destruct (Rtotal_order (dot2 d e) 0) as [L|[Z|G]]; [right; exact L| |left; exact G]. exfalso.
  pose proof (lagrange2 d e) as LG. rewrite H, Z in LG. rewrite <- !norm2_sq in LG. pose proof (norm_pos_ne d D). pose proof (norm_pos_ne e E).
  assert (0 < norm2 d * norm2 d * (norm2 e * norm2 e)) by (repeat apply Rmult_lt_0_compat; assumption). lra.
Qed.
Fixpoint sumR (l : list R) : R := match l with [] => 0 | a :: l => a + sumR l end.
Lemma sum_angles_eq pairs acc : Forall (fun p => dir2 (fst p) <> V2 0 0 /\ dir2 (snd p) <> V2 0 0) pairs ->
  sum_angles acc pairs = Ok (acc + sumR (map (fun p => angle_of (dir2 (fst p)) (dir2 (snd p))) pairs)).
Proof.
  revert acc. induction pairs as [|p rest IH]; intros acc F; [cbn; f_equal; ring|]. apply Forall_cons_iff in F as [[F1 F2] F].
  cbn [sum_angles map sumR]. pose proof (turn_angle_eq _ _ (fst p) (snd p) eq_refl eq_refl F1 F2) as E. unfold sg2 in *. rewrite E. cbn [bind]. rewrite (IH _ F). fold (angle_of (dir2 (fst p)) (dir2 (snd p))). f_equal. ring.
Qed.
Lemma side_ne pts i : no_repeat pts -> side pts i <> V2 0 0.
Proof.
  intros NR E. apply (NR i). unfold side, sub2 in E. assert (A := f_equal x2 E). assert (B := f_equal y2 E). cbn in A, B.
  destruct (corner pts (S i)), (corner pts i). cbn in *. f_equal; lra.
Qed.
Lemma dir_seg pts i : dir2 (seg pts i) = side pts i. Proof. reflexivity. Qed.
Lemma is_trigo_eq pts : no_repeat pts -> (3 <= length pts)%nat ->
  is_trigo pts = Ok (Rltb 0 (sumR (map (fun i => angle_of (side pts i) (side pts (S i))) (seq 0 (length pts))))).
Proof.
  intros NR L. unfold is_trigo. assert ((length pts <? 3)%nat = false) as -> by (apply Nat.ltb_ge; exact L).
  destruct (pairs_eq pts NR ltac:(lia)) as (next & -> & E). cbn [bind]. rewrite E. rewrite sum_angles_eq.
  - cbn [bind]. rewrite map_map. cbn [fst snd]. rewrite Rplus_0_l. reflexivity.
  - apply Forall_forall. intros p H. apply in_map_iff in H as (i & <- & H). cbn [fst snd]. split; apply side_ne; exact NR.
Qed.
Lemma sumR_pos l : (forall x, In x l -> 0 <= x) -> 0 <= sumR l /\ forall x, In x l -> x <= sumR l.
Proof.
  induction l as [|a l IH]; intros H; [cbn; split; [lra|tauto]|]. destruct IH as [A B]; [intros; apply H; right; assumption|].
  pose proof (H a (or_introl eq_refl)). cbn [sumR]. split; [lra|]. intros x [<-|X]; [lra|]. pose proof (B x X). lra.
Qed.
Lemma sumR_opp l : sumR (map Ropp l) = - sumR l.
Proof. induction l as [|a l IH]; cbn; [ring|rewrite IH; ring]. Qed.
Lemma turn_mod pts i : turn pts (i mod length pts) = turn pts i.
Proof.
  unfold turn, side. rewrite corner_mod, corner_mod_S. destruct pts as [|p pts]; [destruct i; reflexivity|].
  assert (E : corner (p :: pts) (S (S (i mod length (p :: pts)))) = corner (p :: pts) (S (S i))); [|rewrite E; reflexivity].
  unfold corner. f_equal. change (S (S (i mod length (p :: pts)))) with (2 + i mod length (p :: pts))%nat. rewrite Nat.add_mod_idemp_r by (cbn; lia). reflexivity.
Qed.
(** a polygon that always turns left is trigonometric, one that always turns right is not *)
Lemma trigo_left pts : no_repeat pts -> (3 <= length pts)%nat -> (forall i, 0 <= turn pts i /\ ~ goes_back pts i) -> (exists i, 0 < turn pts i) -> is_trigo pts = Ok true.
Proof.
  intros NR L T (k & K). rewrite (is_trigo_eq _ NR L). f_equal. apply Rltb_spec. set (n := length pts) in *.
  assert (P : forall x, In x (map (fun i => angle_of (side pts i) (side pts (S i))) (seq 0 n)) -> 0 <= x).
  { intros x H. apply in_map_iff in H as (i & <- & H). destruct (T i) as [T1 T2]. destruct (Req_dec (turn pts i) 0) as [Z|N].
    - rewrite angle_straight; [lra|apply side_ne, NR|apply side_ne, NR|exact Z|]. destruct (parallel _ _ (side_ne pts i NR) (side_ne pts (S i) NR) Z) as [G|G]; [exact G|]. exfalso. apply T2. split; [exact Z|exact G].
    - apply Rlt_le, angle_left; [apply side_ne, NR|apply side_ne, NR|]. change (0 < turn pts i). lra. }
  destruct (sumR_pos _ P) as [_ M]. eapply Rlt_le_trans; [|apply M; apply in_map_iff; exists (k mod n); split; [reflexivity|apply in_seq; split; [lia|apply Nat.mod_upper_bound; lia]]].
  apply angle_left; [apply side_ne, NR|apply side_ne, NR|]. change (0 < turn pts (k mod n)). unfold n. rewrite turn_mod. exact K.
Qed.
Lemma trigo_right pts : no_repeat pts -> (3 <= length pts)%nat -> (forall i, turn pts i <= 0 /\ ~ goes_back pts i) -> is_trigo pts = Ok false.
Proof.
  intros NR L T. rewrite (is_trigo_eq _ NR L). f_equal. apply Rltb_false. set (n := length pts) in *.
  set (l := map (fun i => angle_of (side pts i) (side pts (S i))) (seq 0 n)).
  assert (P : forall x, In x (map Ropp l) -> 0 <= x).
  { intros x H. apply in_map_iff in H as (y & <- & H). apply in_map_iff in H as (i & <- & H). destruct (T i) as [T1 T2]. destruct (Req_dec (turn pts i) 0) as [Z|N].
    - rewrite angle_straight; [lra|apply side_ne, NR|apply side_ne, NR|exact Z|]. destruct (parallel _ _ (side_ne pts i NR) (side_ne pts (S i) NR) Z) as [G|G]; [exact G|]. exfalso. apply T2. split; [exact Z|exact G].
    - assert (angle_of (side pts i) (side pts (S i)) < 0); [|lra]. apply angle_right; [apply side_ne, NR|apply side_ne, NR|]. change (turn pts i < 0). lra. }
  destruct (sumR_pos _ P) as [A _]. rewrite sumR_opp in A. lra.
Qed.

(** one point, repeated *)
Lemma no_side_of_one_point p n : line_segments (repeat p n) = [].
Proof.
  destruct n as [|[|n]]; [reflexivity|reflexivity|]. unfold line_segments. cbn [repeat].
  change (filter (fun s => negb (eqb2 (fst s) (snd s))) (combine (repeat p (S (S n))) (repeat p (S n) ++ [p])) = []).
  pose proof (repeat_cons (S n) p) as RC; change (p :: repeat p (S n)) with (repeat p (S (S n))) in RC; rewrite <- RC; clear RC.
  induction (S (S n)) as [|k IH]; [reflexivity|]. cbn [repeat combine filter fst snd].
  rewrite (proj2 (eqb2_iff p p) eq_refl). exact IH.
Qed.
Lemma trigo_one_point p n : is_trigo (repeat p n) = (if (n <? 3)%nat then Ok true else Err IndexError).
Proof. unfold is_trigo. rewrite repeat_length, no_side_of_one_point. now destruct (n <? 3)%nat. Qed.
Lemma convex_one_point p n : is_convex (repeat p n) = Err IndexError.
Proof. unfold is_convex. now rewrite no_side_of_one_point. Qed.
Lemma trigo_few pts : (length pts < 3)%nat -> is_trigo pts = Ok true.
Proof. intros H. unfold is_trigo. now rewrite (proj2 (Nat.ltb_lt _ _) H). Qed.
