From Coq Require Import List Arith Bool Reals Lra Lia Psatz Permutation.
From Verif.Model Require Import RBase Vec Geometry Curves Edges PolyTurn.
From Verif.Spec Require Import AngleSpec PolyTurnSpec.
From Verif.Proofs Require Import VecP GeometryP PolyTurnP PolyTurnP2.
Import ListNotations.
Open Scope R_scope.

Lemma insert_perm pts i l : Permutation (i :: l) (insert pts i l).
Proof.
  induction l as [|j l IH]; [reflexivity|]. cbn [insert]. destruct (key_lt _ _); [|reflexivity].
  eapply perm_trans; [apply perm_swap|]. constructor. exact IH.
Qed.
Lemma sorted_perm pts : Permutation (seq 0 (length pts)) (sorted_index pts).
Proof.
  unfold sorted_index. induction (seq 0 (length pts)) as [|i l IH]; [reflexivity|]. cbn [fold_right]. eapply perm_trans; [constructor; exact IH|]. apply insert_perm.
Qed.
Lemma sorted_length pts : length (sorted_index pts) = length pts.
Proof. rewrite <- (Permutation_length (sorted_perm pts)). apply seq_length. Qed.
Lemma sorted_nodup pts : NoDup (sorted_index pts).
Proof. eapply Permutation_NoDup; [apply sorted_perm|apply seq_NoDup]. Qed.
Lemma sorted_range pts i : In i (sorted_index pts) -> (i < length pts)%nat.
Proof. intros H. apply (Permutation_in i (Permutation_sym (sorted_perm pts))), in_seq in H. lia. Qed.
Lemma at_index_err l i e : at_index l i = Err e -> e = IndexError.
Proof. unfold at_index. destruct (nth_error l i); congruence. Qed.
Lemma segments_at_err sorted i index e : segments_at sorted i index = Err e -> e = IndexError.
Proof.
  unfold segments_at. destruct (index =? 0)%nat; cbn [bind].
  - destruct (_ <=? _)%nat; cbn [bind]; [discriminate|]. destruct (at_index sorted (i + 1)) eqn:E; cbn [bind]; intros H; [discriminate|]. injection H as <-. eapply at_index_err, E.
  - destruct (at_index sorted _) eqn:E; cbn [bind]; [|intros H; injection H as <-; eapply at_index_err, E].
    destruct (_ <=? _)%nat; cbn [bind]; [discriminate|]. destruct (at_index sorted (i + 1)) eqn:E2; cbn [bind]; intros H; [discriminate|]. injection H as <-. eapply at_index_err, E2.
Qed.
Lemma get_segments_err sorted l i e : get_segments_from sorted i l = Err e -> e = IndexError.
Proof.
  revert i. induction l as [|x l IH]; intros i; [discriminate|]. cbn [get_segments_from]. destruct (segments_at sorted i x) eqn:E; cbn [bind]; [|intros H; injection H as <-; eapply segments_at_err, E].
  destruct (get_segments_from sorted (S i) l) eqn:E2; cbn [bind]; [discriminate|]. intros H. injection H as <-. eapply IH, E2.
Qed.
(** the last segments ask for a place after the last *)
Lemma get_segments_last sorted l i s : get_segments_from sorted i l = Ok s -> (i + length l = length sorted)%nat -> l <> [] -> (length sorted - 1 <= last l 0)%nat.
Proof.
  revert i s. induction l as [|x l IH]; intros i s H L N; [congruence|]. cbn [get_segments_from] in H. destruct (segments_at sorted i x) as [s1|] eqn:E; cbn [bind] in H; [|discriminate].
  destruct (get_segments_from sorted (S i) l) as [s2|] eqn:E2; cbn [bind] in H; [|discriminate]. destruct l as [|y l].
  - cbn [last]. unfold segments_at in E. destruct (if (x =? 0)%nat then _ else _); cbn [bind] in E; [|discriminate]. destruct (length sorted - 1 <=? x)%nat eqn:Q; [apply Nat.leb_le, Q|].
    cbn [length] in L. unfold at_index in E. rewrite (proj2 (nth_error_None sorted (i + 1))) in E by lia. discriminate E.
  - change (last (x :: y :: l) 0%nat) with (last (y :: l) 0%nat). apply (IH (S i) s2); [exact E2|cbn [length] in *; lia|discriminate].
Qed.
Lemma meet pts i j k : (i < length pts)%nat -> (j < length pts)%nat -> (k < length pts)%nat -> i <> j -> i <> k -> j <> k -> general_position pts -> segments_intersect pts (i, j) (i, k) = Ok true.
Proof.
  intros I J K IJ IK JK G. specialize (G i j k I J K IJ IK JK). unfold segments_intersect. cbn [fst snd]. revert G. generalize (nth i pts O2D) (nth j pts O2D) (nth k pts O2D). intros [a b] [c d] [e f]. unfold cross2, sub2. cbn [x2 y2]. intros G.
  assert (D0 : 0 < / 10 ^ 15) by (apply Rinv_0_lt_compat, pow_lt; lra).
  assert (N : (c - a) * (f - b) - (d - b) * (e - a) <> 0) by (intros Z; rewrite Z, Rabs_R0 in G; lra).
  unfold segment2. destruct (eqb2 (V2 a b) (V2 c d)) eqn:E1; [apply eqb2_iff in E1; injection E1 as -> ->; exfalso; apply N; ring|].
  destruct (eqb2 (V2 a b) (V2 e f)) eqn:E2; [apply eqb2_iff in E2; injection E2 as -> ->; exfalso; apply N; ring|]. cbn [bind]. unfold line_intersection. set (den := (a - c) * (b - f) - (b - d) * (a - e)).
  assert (Ed : den = (c - a) * (f - b) - (d - b) * (e - a)) by (unfold den; ring). assert (isclose den 0 (/ 10 ^ 15) = false) as ->.
  { unfold isclose. apply Rleb_false. rewrite Rminus_0_r, Rabs_R0. rewrite <- Ed in G. rewrite (Rmax_left (Rabs den) 0) by (apply Rabs_pos). apply Rmax_lub_lt; [|exact G].
    assert (/ 10 ^ 9 < 1). { rewrite <- Rinv_1. apply Rinv_lt_contravar; [|]; simpl; lra. } pose proof (Rabs_pos den). nra. }
  assert (T0 : ((a - a) * (b - f) - (b - b) * (a - e)) / den = 0) by (unfold Rdiv; ring). assert (U0 : - ((a - c) * (b - b) - (b - d) * (a - a)) / den = 0) by (unfold Rdiv; ring).
  rewrite T0, U0. assert (Rleb 0 0 = true) as -> by (apply Rleb_spec; lra). assert (Rleb 0 1 = true) as -> by (apply Rleb_spec; lra). reflexivity.
Qed.
Lemma self_intersects_always pts : (3 <= length pts)%nat -> general_position pts -> self_intersects pts = Err IndexError \/ exists s, self_intersects pts = Ok (Some s).
Proof.
  intros L G. unfold self_intersects, get_segments. destruct (get_segments_from _ 0 _) as [segments|e] eqn:E; [right|left; cbn [bind]; f_equal; eapply get_segments_err, E]. cbn [bind].
  pose proof (sorted_length pts) as SL. pose proof (sorted_nodup pts) as ND. pose proof (sorted_range pts) as RG.
  pose proof (get_segments_last _ _ _ _ E ltac:(lia) ltac:(intros Z; rewrite Z in SL; cbn in SL; lia)) as LA.
  destruct (sorted_index pts) as [|i0 [|i1 rest]] eqn:S0; [cbn in SL; lia|cbn in SL; lia|]. set (sorted := i0 :: i1 :: rest) in *.
  assert (R : rest <> []) by (intros Z; subst rest; cbn in SL; lia).
  assert (LI : In (last sorted 0%nat) rest). { unfold sorted. destruct rest as [|r rest]; [congruence|]. cbn [last]. clear. revert r. induction rest as [|r2 rest IH]; intros r; [left; reflexivity|]. right. apply (IH r2). }
  assert (LE : last sorted 0%nat = (length sorted - 1)%nat). { assert (In (last sorted 0%nat) sorted) as Q by (right; right; exact LI). apply RG in Q. lia. }
  inversion ND as [|x y NI0 ND1]; subst x y. inversion ND1 as [|x y NI1 ND2]; subst x y.
  assert (Z0 : i0 <> last sorted 0%nat) by (intros Z; apply NI0; right; rewrite Z; exact LI). assert (Z1 : i1 <> last sorted 0%nat) by (intros Z; apply NI1; rewrite Z; exact LI).
  assert (Z01 : i0 <> i1) by (intros Z; apply NI0; left; congruence).
  assert (B0 : (i0 < length pts)%nat) by (apply RG; left; reflexivity). assert (B1 : (i1 < length pts)%nat) by (apply RG; right; left; reflexivity).
  assert (F : segments_at sorted 0 i0 = Ok [(i0, last sorted 0%nat); (i0, i1)]).
  { unfold segments_at. assert ((length sorted - 1 <=? i0)%nat = false) as -> by (apply Nat.leb_gt; lia).
    assert (A : (if (i0 =? 0)%nat then Ok (length sorted - 1)%nat else at_index sorted (length sorted - 1)) = Ok (last sorted 0%nat)).
    { destruct (i0 =? 0)%nat; [rewrite LE; reflexivity|]. unfold at_index. assert (Q : nth_error sorted (length sorted - 1) = Some (last sorted 0%nat)); [|rewrite Q; reflexivity].
      rewrite (nth_error_nth' sorted 0%nat) by (cbn; lia). f_equal. clear. induction sorted as [|a l IH]; [reflexivity|]. destruct l as [|b l]; [reflexivity|]. cbn [length] in *. rewrite Nat.sub_succ, Nat.sub_0_r in *. cbn [nth last] in *. exact IH. }
    rewrite A. cbn [bind]. unfold at_index. cbn. reflexivity. }
  set (m := last sorted 0%nat) in *. clearbody m.
  change (get_segments_from sorted 0 sorted) with (do s <- segments_at sorted 0 i0; do t <- get_segments_from sorted 1 (i1 :: rest); Ok (s ++ t)) in E.
  rewrite F in E. cbn [bind] in E. destruct (get_segments_from sorted 1 (i1 :: rest)) as [t|]; cbn [bind] in E; [|discriminate]. injection E as <-. cbn [app].
  eexists. cbn [first_of]. cbn [fst snd]. rewrite !Nat.eqb_refl. cbn [andb bind]. assert ((m =? i1)%nat = false) as -> by (apply Nat.eqb_neq; congruence). cbn [andb].
  rewrite (meet pts i0 m i1 B0 ltac:(lia) B1 Z0 Z01 ltac:(congruence) G). cbn [bind]. reflexivity.
Qed.

Definition square : list vec2 := [V2 0 0; V2 1 0; V2 1 1; V2 0 1].
Definition square' : list vec2 := [V2 0 1; V2 0 0; V2 1 0; V2 1 1].
Lemma square_simple : simple_polygon square /\ simple_polygon square'.
Proof.
  split; (split; [intros i E; rewrite <- corner_mod_S, <- (corner_mod _ i) in E; (assert (H : (i mod 4 < 4)%nat) by (apply Nat.mod_upper_bound; lia));
      revert E H; change (length square) with 4%nat; change (length square') with 4%nat; generalize (i mod 4)%nat; clear i; intros i E H; unfold corner in E; assert (E1 := f_equal x2 E); assert (E2 := f_equal y2 E);
      do 4 (destruct i as [|i]; [cbn in E1, E2; lra|]); lia|]);
  intros i j s t H S1 T E; unfold on_side, side, corner in E; assert (E1 := f_equal x2 E); assert (E2 := f_equal y2 E); clear E; cbn [length square square'] in *;
  do 4 (destruct i as [|i]; [do 4 (destruct j as [|j]; [try (exfalso; lia); cbn in E1, E2;
     first [exfalso; lra | left; split; [reflexivity|split; lra] | right; split; [reflexivity|split; [reflexivity|split; lra]]]|]); lia|]); lia.
Qed.
Ltac keys := unfold key_lt; cbn [x2 y2 nth]; repeat (match goal with |- context [Rltb ?a ?b] => 
   first [assert (Rltb a b = true) as -> by (apply Rltb_spec; lra) | assert (Rltb a b = false) as -> by (apply Rltb_false; lra)]
   | |- context [Reqb ?a ?b] => first [assert (Reqb a b = true) as -> by (apply Reqb_spec; lra) | assert (Reqb a b = false) as -> by (apply Reqb_false; lra)] end; cbn [orb andb]).
Lemma square_sorted : sorted_index square = [0; 3; 1; 2]%nat /\ sorted_index square' = [1; 0; 2; 3]%nat.
Proof. split; unfold sorted_index, square, square'; cbn [length seq fold_right]; repeat (cbn [insert]; keys); reflexivity. Qed.
Lemma square_position pts : pts = square \/ pts = square' -> general_position pts.
Proof.
  intros P i j k I J K IJ IK JK. assert (A : forall x, x <= -1 \/ 1 <= x -> / 10 ^ 15 < Rabs x).
  { intros x H. assert (/ 10 ^ 15 < 1). { rewrite <- Rinv_1. apply Rinv_lt_contravar; simpl; lra. } unfold Rabs. destruct (Rcase_abs x); lra. }
  apply A. destruct P as [-> | ->]; unfold square, square' in *; cbn [length] in *;
  do 4 (destruct i as [|i]; [do 4 (destruct j as [|j]; [try (exfalso; lia); do 4 (destruct k as [|k]; [try (exfalso; lia); cbn [nth]; unfold cross2, sub2; cbn [x2 y2]; first [left; lra|right; lra]|]); lia|]); lia|]); lia.
Qed.
Lemma self_refuted : exists pts pts', simple_polygon pts /\ simple_polygon pts' /\ self_intersects pts = Err IndexError /\ exists s, self_intersects pts' = Ok (Some s).
Proof.
  exists square, square'. destruct square_simple as [A B]. destruct square_sorted as [SA SB]. split; [exact A|]. split; [exact B|]. split.
  - unfold self_intersects, get_segments. rewrite SA. reflexivity.
  - destruct (self_intersects_always square' ltac:(cbn; lia) (square_position _ (or_intror eq_refl))) as [E|E]; [|exact E]. exfalso.
    unfold self_intersects, get_segments in E. rewrite SB in E. cbn [get_segments_from segments_at Nat.eqb length Nat.sub Nat.leb at_index nth_error bind Nat.add app] in E. revert E. 
    pose proof (meet square' 1 3 0 ltac:(cbn; lia) ltac:(cbn; lia) ltac:(cbn; lia) ltac:(lia) ltac:(lia) ltac:(lia) (square_position _ (or_intror eq_refl))) as M.
    cbn [first_of fst snd Nat.eqb andb bind]. rewrite M. cbn. discriminate.
Qed.
Lemma corner_reduce pts (P : vec2 -> vec2 -> vec2 -> Prop) : (forall i j, (i < length pts)%nat -> (j < length pts)%nat -> P (corner pts i) (corner pts (S i)) (corner pts j)) ->
  (0 < length pts)%nat -> forall i j, P (corner pts i) (corner pts (S i)) (corner pts j).
Proof. intros H L i j. rewrite <- (corner_mod_S pts i), <- (corner_mod pts i), <- (corner_mod pts j). apply H; apply Nat.mod_upper_bound; lia. Qed.
Lemma square_facts : let pts := [V2 0 0; V2 1 0; V2 1 1; V2 0 1] in no_repeat pts /\ not_flat pts /\ convex_trigo pts /\ general_position pts.
Proof.
  cbv zeta. fold square. split; [apply (proj1 (proj1 square_simple))|]. split; [|split; [|apply square_position; left; reflexivity]].
  - intros i. exists (S (S i)). rewrite cross_next. rewrite <- turn_mod. assert (H : (i mod length square < 4)%nat) by (apply Nat.mod_upper_bound; cbn; lia). revert H. generalize (i mod length square)%nat. intros k H.
    unfold turn, side, corner, square. do 4 (destruct k as [|k]; [cbn; unfold cross2, sub2; cbn; lra|]). lia.
  - unfold convex_trigo, side. apply (corner_reduce square (fun p q r => 0 <= cross2 (sub2 q p) (sub2 r p))); [|cbn; lia].
    intros i j H K. unfold corner. cbn [length square] in *. do 4 (destruct i as [|i]; [do 4 (destruct j as [|j]; [cbn; unfold cross2, sub2; cbn; lra|]); lia|]). lia.
Qed.
