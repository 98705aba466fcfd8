(** Assemblies, compounds and volume models. *)
From Coq Require Import Reals Lra Lia List Bool ZArith Permutation.
From Verif.Model Require Import Base RBase Vec Frame BBox Containers.
From Verif.Spec Require Import VecSpec FrameSpec BBoxSpec ContainersSpec.
From Verif.Proofs Require Import VecP FrameP FrameP2 BBoxP.
Import ListNotations.
Open Scope R_scope.

(** ** placement *)
Lemma det_rows b : det33 (rows_of b) = dot3 (cross3 (bu b) (bv b)) (bw b).
Proof. destruct b as [[a b c] [d e f] [g h i]]. unfold det33, rows_of, dot3, cross3. cbn. ring. Qed.
Lemma placing_ok i j F : placing_frame i j = Ok F -> independent (fb3 i) /\
  forall v, frame_point F (frame_point i v) = add3 (frame_point j v) (basis_vector (fb3 F) (org3 i)).
Proof.
  unfold placing_frame, get_transfer_matrix_from_basis, np_solve33, independent. rewrite det_rows.
  destruct (Reqb _ 0) eqn:E; [discriminate|]. cbn [bind].
  assert (N : dot3 (cross3 (bu (fb3 i)) (bv (fb3 i))) (bw (fb3 i)) <> 0).
  { intro H. unfold Reqb in E. destruct (Req_EM_T _ 0); [discriminate|]. contradiction. }
  intros H. injection H as <-. split; [exact N|]. intros [x y z].
  destruct i as [[ox oy oz] [[a b c] [d e f] [g h k]]], j as [[px py pz] [[a' b' c'] [d' e' f'] [g' h' k']]].
  unfold frame_point, basis_vector, rows_of, dot3, cross3, add3, mul3, mmul33 in *.
  cbn [org3 fb3 bu bv bw x3 y3 z3 m11 m12 m13 m21 m22 m23 m31 m32 m33] in *.
  apply vec3_ext; cbn [x3 y3 z3]; field; intro Q; apply N; rewrite <- Q; ring.
Qed.
Lemma placing_total i j : independent (fb3 i) -> exists F, placing_frame i j = Ok F.
Proof.
  intros N. unfold placing_frame, get_transfer_matrix_from_basis, np_solve33. rewrite det_rows.
  unfold Reqb. destruct (Req_EM_T _ 0) as [E|_]; [contradiction|]. cbn [bind]. eauto.
Qed.
Lemma placing_err i j : ~ independent (fb3 i) -> placing_frame i j = Err ValueError.
Proof.
  intros N. unfold placing_frame, get_transfer_matrix_from_basis, np_solve33. rewrite det_rows.
  unfold Reqb. destruct (Req_EM_T _ 0) as [E|E]; [reflexivity|]. exfalso. exact (N E).
Qed.
Lemma basis_vector_0 b : basis_vector b O3D = O3D.
Proof. destruct b as [[a b c] [d e f] [g h i]]. unfold basis_vector, add3, mul3, O3D. cbn [x3 y3 z3]. apply vec3_ext; cbn; ring. Qed.
Lemma add3_0 v : add3 v O3D = v.
Proof. destruct v. unfold add3, O3D. cbn. f_equal; ring. Qed.
Lemma placing_carries i j : independent (fb3 i) -> org3 i = O3D -> exists F, placing_frame i j = Ok F /\ carries F i j.
Proof.
  intros N O. destruct (placing_total i j N) as [F E]. exists F. split; [exact E|]. intro v.
  destruct (placing_ok i j F E) as [_ H]. rewrite H, O, basis_vector_0. apply add3_0.
Qed.
Lemma frame3_eqb_spec f g : frame3_eqb f g = true <-> f = g.
Proof.
  unfold frame3_eqb. rewrite !andb_true_iff, !vec3_eqb_spec. destruct f as [o [u v w]], g as [o' [u' v' w']]. cbn.
  split; [intros [[[-> ->] ->] ->]; reflexivity|]. intros H. injection H as -> -> -> ->. auto.
Qed.
Lemma oxyz_point v : frame_point OXYZ_frame v = v.
Proof. destruct v as [x y z]. unfold frame_point, basis_vector, OXYZ_frame, add3, mul3, O3D, X3D, Y3D, Z3D. cbn [org3 fb3 bu bv bw x3 y3 z3]. apply vec3_ext; cbn; ring. Qed.
Lemma map_primitive_ok {A} isf off (fm : A -> frame3 -> res A) p i j q : org3 i = O3D -> map_primitive isf off fm p i j = Ok q ->
  (i = j /\ q = p) \/ (isf p i = true /\ q = off j) \/
  (independent (fb3 i) /\ exists F, carries F i j /\ (fm p F = Ok q \/ (q = p /\ forall v, frame_point F v = v))).
Proof.
  intros O. unfold map_primitive. destruct (frame3_eqb i j) eqn:E.
  { intros H. injection H as <-. left. apply frame3_eqb_spec in E. auto. }
  destruct (isf p i) eqn:S. { intros H. injection H as <-. right. left. auto. }
  destruct (placing_frame i j) as [F|] eqn:P; [|discriminate]. cbn [bind]. intro H0. right. right.
  destruct (placing_ok i j F P) as [N H]. split; [exact N|]. exists F. split.
  { intro v. rewrite H, O, basis_vector_0. apply add3_0. }
  destruct (frame3_eqb F OXYZ_frame) eqn:Q.
  - injection H0 as <-. right. split; [reflexivity|]. apply frame3_eqb_spec in Q. subst. apply oxyz_point.
  - left. exact H0.
Qed.
Lemma l2g_near f v : near (/ 10 ^ 16) (frame3_l2g f v) (frame_point f v).
Proof.
  unfold frame3_l2g, frame_point, basis3_l2g. apply near_add.
  replace (basis_vector (fb3 f) v) with (mapply (transfer_matrix3 (fb3 f)) v); [apply mvec33_near|].
  destruct f as [o [[a b c] [d e g] [h i k]]], v as [x y z]. unfold mapply, transfer_matrix3, basis_vector, add3, mul3. cbn. apply vec3_ext; cbn; ring.
Qed.
Lemma near_refl k v : 0 <= k -> near k v v.
Proof. intros K. unfold near. rewrite !Rminus_diag_eq, Rabs_R0 by reflexivity. auto. Qed.
Lemma point_placed i j off v : independent (fb3 i) -> org3 i = O3D ->
  exists q, map_primitive no_frame off point_mapping (frame_point i v) i j = Ok q /\ near (/ 10 ^ 16) q (frame_point j v).
Proof.
  intros N O. destruct (placing_carries i j N O) as (F & P & C).
  assert (K : 0 <= / 10 ^ 16) by (left; apply pow10_inv_pos).
  unfold map_primitive, no_frame, point_mapping. destruct (frame3_eqb i j) eqn:E.
  { apply frame3_eqb_spec in E. subst. exists (frame_point j v). split; [reflexivity|apply near_refl, K]. }
  rewrite P. cbn [bind]. destruct (frame3_eqb F OXYZ_frame) eqn:Q.
  - apply frame3_eqb_spec in Q. subst. exists (frame_point i v). split; [reflexivity|]. rewrite <- (C v), oxyz_point. apply near_refl, K.
  - exists (frame3_l2g F (frame_point i v)). split; [reflexivity|]. rewrite <- (C v). apply l2g_near.
Qed.
Lemma misplaced : let i := F3 (V3 1 0 0) (B3 X3D Y3D Z3D) in let j := F3 (V3 2 0 0) (B3 X3D Y3D Z3D) in
  map_primitive no_frame (fun f => org3 f) point_mapping (frame_point i O3D) i j = Ok (V3 3 0 0) /\ frame_point j O3D = V3 2 0 0.
Proof.
  intros i j. assert (Q : frame_point j O3D = V3 2 0 0).
  { unfold frame_point, basis_vector, j, add3, mul3, O3D, X3D, Y3D, Z3D. cbn [org3 fb3 bu bv bw x3 y3 z3]. apply vec3_ext; cbn; ring. }
  split; [|exact Q]. assert (E : frame3_eqb i j = false).
  { destruct (frame3_eqb i j) eqn:E; [|reflexivity]. apply frame3_eqb_spec in E. injection E. lra. }
  assert (P : placing_frame i j = Ok j).
  { unfold placing_frame, get_transfer_matrix_from_basis, np_solve33. rewrite det_rows. cbn [fb3 i j].
    assert (D : dot3 (cross3 X3D Y3D) Z3D = 1) by (unfold dot3, cross3, X3D, Y3D, Z3D; cbn; ring).
    cbn [bu bv bw]. rewrite D. unfold Reqb. destruct (Req_EM_T 1 0) as [H|_]; [lra|]. cbn [bind].
    f_equal. unfold j, rows_of, mmul33, X3D, Y3D, Z3D. cbn [org3 bu bv bw x3 y3 z3 m11 m12 m13 m21 m22 m23 m31 m32 m33].
    f_equal. f_equal; apply vec3_ext; cbn; field. }
  unfold map_primitive, no_frame. rewrite E, P. cbn [bind].
  assert (E2 : frame3_eqb j OXYZ_frame = false).
  { destruct (frame3_eqb j OXYZ_frame) eqn:E2; [|reflexivity]. apply frame3_eqb_spec in E2. injection E2. lra. }
  rewrite E2. unfold point_mapping. f_equal. unfold frame3_l2g, basis3_l2g, mvec33.
  assert (P0 : frame_point i O3D = V3 1 0 0).
  { unfold frame_point, basis_vector, i, add3, mul3, O3D, X3D, Y3D, Z3D. cbn [org3 fb3 bu bv bw x3 y3 z3]. apply vec3_ext; cbn; ring. }
  rewrite P0. unfold j, transfer_matrix3, X3D, Y3D, Z3D, add3. cbn [org3 fb3 bu bv bw x3 y3 z3 m11 m12 m13 m21 m22 m23 m31 m32 m33].
  assert (L : / 10 ^ 16 <= 1). { rewrite <- Rinv_1 at 1. apply Rinv_le_contravar; [lra|]. apply pow_R1_Rle. lra. }
  replace (1 * 1 + 0 * 0 + 0 * 0) with 1 by ring. replace (0 * 1 + 1 * 0 + 0 * 0) with 0 by ring. replace (0 * 1 + 0 * 0 + 1 * 0) with 0 by ring.
  rewrite (snap_exact 1) by (right; rewrite Rabs_R1; exact L). rewrite (snap_exact 0) by (left; reflexivity).
  apply vec3_ext; cbn; ring.
Qed.

(** ** assemblies *)
Lemma forall2_len {A B} (P : A -> B -> Prop) l m : Forall2 P l m -> length l = length m.
Proof. induction 1; cbn; congruence. Qed.
Lemma mapM_ok {A B} (f : A -> res B) l r : mapM f l = Ok r <-> all_results f l r.
Proof.
  unfold all_results. revert r. induction l as [|a l IH]; intros r; cbn.
  - split; [intros H; injection H as <-; constructor|intros H; inversion H; reflexivity].
  - split.
    + destruct (f a) as [b|] eqn:E; [|discriminate]. cbn. destruct (mapM f l) as [s|] eqn:M; [|discriminate]. cbn.
      intros H. injection H as <-. constructor; [exact E|]. apply IH. reflexivity.
    + intros H. inversion H as [|? b ? s E F]; subst. rewrite E. cbn. apply IH in F. rewrite F. reflexivity.
Qed.
Lemma assembly_ok {A} isf off (fm : A -> frame3 -> res A) comps pos fr r :
  assembly_primitives isf off fm comps pos fr = Ok r <->
  all_results (fun c => map_primitive isf off fm (fst c) fr (snd c)) (combine comps pos) r.
Proof. apply mapM_ok. Qed.
Lemma assembly_length {A} isf off (fm : A -> frame3 -> res A) comps pos fr r :
  assembly_primitives isf off fm comps pos fr = Ok r -> length r = min (length comps) (length pos).
Proof.
  intros H. apply assembly_ok in H. unfold all_results in H. apply forall2_len in H.
  rewrite combine_length in H. symmetry. exact H.
Qed.
Lemma assembly_points comps pos fr off r : independent (fb3 fr) -> org3 fr = O3D ->
  assembly_primitives no_frame off point_mapping (map (frame_point fr) comps) pos fr = Ok r ->
  Forall2 (fun c q => near (/ 10 ^ 16) q (frame_point (snd c) (fst c))) (combine comps pos) r.
Proof.
  intros N O H. apply assembly_ok in H. unfold all_results in H. revert pos r H.
  induction comps as [|v comps IH]; intros pos r H; cbn in *; [inversion H; constructor|].
  destruct pos as [|p pos]; [inversion H; constructor|]. inversion H as [|? q ? s E F]; subst.
  constructor; [|apply IH; exact F]. cbn [fst snd] in *.
  destruct (point_placed fr p off v N O) as (q' & Q & K). rewrite E in Q. injection Q as <-. exact K.
Qed.
Lemma positions_moved pos f : Forall2 (fun p q => near (/ 10 ^ 16) (org3 q) (frame_point f (org3 p)) /\
    near (/ 10 ^ 16) (bu (fb3 q)) (basis_vector (fb3 f) (bu (fb3 p))) /\ near (/ 10 ^ 16) (bv (fb3 q)) (basis_vector (fb3 f) (bv (fb3 p))) /\
    near (/ 10 ^ 16) (bw (fb3 q)) (basis_vector (fb3 f) (bw (fb3 p)))) pos (assembly_positions_old pos f).
Proof.
  assert (B : forall v, near (/ 10 ^ 16) (basis3_l2g (fb3 f) v) (basis_vector (fb3 f) v)).
  { intro v. unfold basis3_l2g.
    replace (basis_vector (fb3 f) v) with (mapply (transfer_matrix3 (fb3 f)) v); [apply mvec33_near|].
    destruct f as [o [[a b c] [d e g] [h i k]]], v as [x y z]. unfold mapply, transfer_matrix3, basis_vector, add3, mul3. cbn. apply vec3_ext; cbn; ring. }
  induction pos as [|p pos IH]; cbn; constructor; [|exact IH]. cbn [org3 fb3 bu bv bw frame3_mapping_old].
  split; [apply l2g_near|]. split; [apply B|]. split; apply B.
Qed.

(** ** bounding boxes *)
Lemma boxes_in l b : In b (boxes_of l) <-> In (Boxed b) l.
Proof.
  unfold boxes_of. rewrite in_flat_map. split.
  - intros (m & I & H). destruct m; cbn in H; [|tauto|tauto]. destruct H as [<-|[]]. exact I.
  - intros I. exists (Boxed b). split; [exact I|left; reflexivity].
Qed.
Lemma points_in l p : In p (points_of l) <-> In (PointMember p) l.
Proof.
  unfold points_of. rewrite in_flat_map. split.
  - intros (m & I & H). destruct m; cbn in H; [tauto| |tauto]. destruct H as [<-|[]]. exact I.
  - intros I. exists (PointMember p). split; [exact I|left; reflexivity].
Qed.
Lemma group_is_model l b : In (Boxed b) l -> group_bounding_box l = model_bounding_box l.
Proof.
  intros I. unfold group_bounding_box, model_bounding_box. apply boxes_in in I. destruct (boxes_of l); [contradiction|reflexivity].
Qed.
Lemma model_box_least l b : model_bounding_box l = Ok b ->
  (forall a, In (Boxed a) l -> box_le a b) /\ (forall c, (forall a, In (Boxed a) l -> box_le a c) -> box_le b c).
Proof.
  intros H. destruct (from_boxes_least _ _ H) as [P Q]. split.
  - intros a I. apply P, boxes_in, I.
  - intros c K. apply Q. intros a I. apply K, boxes_in, I.
Qed.
Lemma model_box_total l : (exists b, model_bounding_box l = Ok b) <-> exists a, In (Boxed a) l.
Proof.
  unfold model_bounding_box. rewrite from_boxes_err. split.
  - intros N. destruct (boxes_of l) as [|a bs] eqn:E; [congruence|]. exists a. apply boxes_in. rewrite E. left. reflexivity.
  - intros [a I] E. apply boxes_in in I. rewrite E in I. exact I.
Qed.
Lemma group_points l p : group_bounding_box (map PointMember (p :: l)) = bbox_from_points (p :: l).
Proof.
  unfold group_bounding_box.
  assert (B : forall l, boxes_of (map PointMember l) = []) by (intros m; induction m; [reflexivity|exact IHm]).
  assert (P : forall l, points_of (map PointMember l) = l) by (intros m; induction m as [|a m IH]; [reflexivity|cbn; unfold points_of in IH; rewrite IH; reflexivity]).
  assert (F : forall l, forallb is_point_member (map PointMember l) = true) by (intros m; induction m; [reflexivity|exact IHm]).
  rewrite B, F, P. reflexivity.
Qed.
Lemma group_total l : (exists b, group_bounding_box l = Ok b) <->
  (exists a, In (Boxed a) l) \/ (l <> [] /\ forall m, In m l -> exists p, m = PointMember p).
Proof.
  destruct (boxes_of l) as [|a bs] eqn:E.
  - assert (NB : forall a, ~ In (Boxed a) l) by (intros a I; apply boxes_in in I; rewrite E in I; exact I).
    unfold group_bounding_box. rewrite E. destruct (forallb is_point_member l) eqn:F.
    + rewrite forallb_forall in F. rewrite from_points_err. split.
      * intros N. right. split; [intros ->; apply N; reflexivity|]. intros m I. specialize (F m I). destruct m; try discriminate. eauto.
      * intros [[a I]|[N _]]; [exfalso; exact (NB a I)|]. destruct l as [|m l]; [congruence|]. intro Z.
        pose proof (F m (or_introl eq_refl)) as G. destruct m; try discriminate.
    + split; [intros [b H]; discriminate|]. intros [[a I]|[_ P]]; [exfalso; exact (NB a I)|].
      exfalso. enough (forallb is_point_member l = true) by congruence. apply forallb_forall. intros m I.
      destruct (P m I) as [p ->]. reflexivity.
  - split; [intros _; left; exists a; apply boxes_in; rewrite E; left; reflexivity|]. intros _.
    assert (I : In (Boxed a) l) by (apply boxes_in; rewrite E; left; reflexivity).
    rewrite (group_is_model l a I). apply model_box_total. exists a. exact I.
Qed.
Lemma point_outside : exists b p, group_bounding_box [Boxed (BBox 0 1 0 1 0 1); PointMember p] = Ok b /\ ~ in_box b p.
Proof.
  exists (BBox 0 1 0 1 0 1), (V3 5 5 5). split; [reflexivity|]. unfold in_box. cbn. lra.
Qed.
Lemma gets_same compute n s l : gets compute n s = Ok l -> forall a b, In a l -> In b l -> a = b.
Proof.
  assert (G : forall n s l b, bbox_cache s = Some b -> gets compute n s = Ok l -> forall a, In a l -> a = b).
  { clear. intros n. induction n as [|n IH]; intros s l b C; cbn.
    - intros H. injection H as <-. intros a [].
    - unfold get_bounding_box. rewrite C. cbn. destruct (gets compute n s) as [r|] eqn:E; [|discriminate]. cbn.
      intros H. injection H as <-. intros a [<-|I]; [reflexivity|]. exact (IH s r b C E a I). }
  destruct n as [|n]; cbn; [intros H; injection H as <-; intros a b []|].
  destruct (get_bounding_box compute s) as [[b0 s']|] eqn:E; [|discriminate]. cbn.
  destruct (gets compute n s') as [r|] eqn:F; [|discriminate]. cbn. intros H. injection H as <-.
  assert (C : bbox_cache s' = Some b0).
  { unfold get_bounding_box in E. destruct (bbox_cache s) eqn:K; [injection E as <- <-; exact K|].
    destruct (compute (members s)); [|discriminate]. cbn in E. injection E as <- <-. reflexivity. }
  assert (All : forall a, In a (b0 :: r) -> a = b0) by (intros a [<-|I]; [reflexivity|exact (G n s' r b0 C F a I)]).
  intros a b Ha Hb. rewrite (All a Ha), (All b Hb). reflexivity.
Qed.
Lemma fresh_get compute l b s : get_bounding_box compute (Cached l None) = Ok (b, s) -> compute l = Ok b /\ members s = l.
Proof. unfold get_bounding_box. cbn. destruct (compute l); [|discriminate]. cbn. intros H. injection H as <- <-. auto. Qed.
Lemma set_get compute s b : get_bounding_box compute (set_bounding_box s b) = Ok (b, set_bounding_box s b).
Proof. reflexivity. Qed.
Lemma stale_box : exists s0 b s a b' s', get_bounding_box model_bounding_box s0 = Ok (b, s) /\ bbox_cache s0 = None /\
  get_bounding_box model_bounding_box (append_member s (Boxed a)) = Ok (b', s') /\ In (Boxed a) (members s') /\ ~ box_le a b'.
Proof.
  exists (Cached [Boxed (BBox 0 1 0 1 0 1)] None), (BBox 0 1 0 1 0 1), (Cached [Boxed (BBox 0 1 0 1 0 1)] (Some (BBox 0 1 0 1 0 1))), (BBox 5 6 5 6 5 6).
  eexists _, _. split; [reflexivity|]. split; [reflexivity|]. split; [reflexivity|]. split; [right; left; reflexivity|].
  unfold box_le. cbn. lra.
Qed.

(** ** volumes, equality *)
Lemma volume_acc {A} (vol : A -> res R) l : forall acc, (exists a, acc = Ok a) -> forall v,
  fold_left (fun acc p => do v <- acc; do w <- vol p; Ok (v + w)) l acc = Ok v <->
  exists a ws, acc = Ok a /\ Forall2 (fun p w => vol p = Ok w) l ws /\ v = a + fold_right Rplus 0 ws.
Proof.
  assert (Er : forall l e v, fold_left (fun acc p => do v <- acc; do w <- vol p; Ok (v + w)) l (Err e) <> Ok v).
  { clear. intros l e. induction l as [|p l IH]; intros v; cbn; [discriminate|exact (IH v)]. }
  induction l as [|p l IH]; intros acc [a ->] v; cbn.
  - split.
    + intros H. injection H as <-. exists a, []. repeat split; [constructor|cbn; ring].
    + intros (a' & ws & E & F & ->). inversion F; subst. injection E as <-. cbn. f_equal. ring.
  - destruct (vol p) as [w|e] eqn:E; cbn.
    + rewrite (IH (Ok (a + w)) (ex_intro _ _ eq_refl)). split.
      * intros (a' & ws & H & F & ->). injection H as <-. exists a, (w :: ws). repeat split; [constructor; assumption|cbn; ring].
      * intros (a' & ws & H & F & ->). injection H as <-. inversion F as [|? w' ? ws' G F']; subst.
        rewrite E in G. injection G as <-. exists (a + w), ws'. repeat split; [assumption|cbn; ring].
    + split; [intros H; exfalso; exact (Er l e v H)|]. intros (a' & ws & H & F & ->). inversion F; subst. congruence.
Qed.
Lemma model_volume_ok {A} (vol : A -> res R) l v : model_volume vol l = Ok v <->
  exists ws, all_results vol l ws /\ v = fold_right Rplus 0 ws.
Proof.
  unfold model_volume, all_results. rewrite (volume_acc vol l (Ok 0) (ex_intro _ _ eq_refl)). split.
  - intros (a & ws & E & F & ->). injection E as <-. exists ws. split; [exact F|ring].
  - intros (ws & F & ->). exists 0, ws. repeat split; [exact F|ring].
Qed.
Lemma model_volume_order {A} (vol : A -> res R) l m v : Permutation l m -> model_volume vol l = Ok v -> model_volume vol m = Ok v.
Proof.
  intros P. rewrite !model_volume_ok. unfold all_results. intros (ws & F & ->). revert ws F.
  assert (G : forall l m, Permutation l m -> forall ws, Forall2 (fun a b => vol a = Ok b) l ws ->
    exists us, Forall2 (fun a b => vol a = Ok b) m us /\ fold_right Rplus 0 us = fold_right Rplus 0 ws).
  { clear. induction 1 as [|x l m P IH|x y l|l m n P IH Q IH2]; intros ws F.
    - exists ws. auto.
    - inversion F as [|? w ? ws' E F']; subst. destruct (IH _ F') as (us & U & S). exists (w :: us). split; [constructor; assumption|cbn; rewrite S; reflexivity].
    - inversion F as [|? w ? ws' E F']; subst. inversion F' as [|? w' ? ws2 E' F2]; subst. exists (w' :: w :: ws2).
      split; [repeat constructor; assumption|cbn; ring].
    - destruct (IH _ F) as (us & U & S). destruct (IH2 _ U) as (xs & X & T). exists xs. split; [exact X|]. rewrite T. exact S. }
  intros ws F. destruct (G l m P ws F) as (us & U & S). exists us. split; [exact U|]. symmetry. exact S.
Qed.
Lemma fold_and {A} (f : A -> bool) l : forall b, fold_left (fun equ p => equ && f p) l b = b && forallb f l.
Proof. induction l as [|a l IH]; intros b; cbn; [rewrite andb_true_r; reflexivity|]. rewrite IH, andb_assoc. reflexivity. Qed.
Lemma model_eqb_ok {A} (eqb : A -> A -> bool) l m : model_eqb eqb l m = true <-> Forall2 (fun a b => eqb a b = true) l m.
Proof.
  unfold model_eqb. rewrite (fold_and (fun pq => eqb (fst pq) (snd pq))). cbn [andb]. revert m. induction l as [|a l IH]; intros [|b m]; cbn.
  - split; [constructor|reflexivity].
  - split; [discriminate|intros H; inversion H].
  - split; [discriminate|intros H; inversion H].
  - specialize (IH m). destruct (length l =? length m)%nat eqn:E; cbn in *.
    + rewrite andb_true_iff, IH. split; [intros [P Q]; constructor; assumption|intros H; inversion H; auto].
    + split; [discriminate|]. intros H. inversion H as [|? ? ? ? P Q]; subst. apply forall2_len in Q.
      apply Nat.eqb_neq in E. contradiction.
Qed.
Lemma hash_acc {A} (h : A -> Z) l : forall z, fold_left (fun s p => (s + h p)%Z) l z = (z + model_hash h l)%Z.
Proof.
  unfold model_hash. induction l as [|a l IH]; intros z; cbn; [lia|]. rewrite IH, (IH (h a)). lia.
Qed.
Lemma hash_cons {A} (h : A -> Z) a l : model_hash h (a :: l) = (h a + model_hash h l)%Z.
Proof. unfold model_hash at 1. cbn. apply hash_acc. Qed.
Lemma model_hash_eq {A} (eqb : A -> A -> bool) (h : A -> Z) l m : (forall a b, eqb a b = true -> h a = h b) ->
  model_eqb eqb l m = true -> model_hash h l = model_hash h m.
Proof.
  intros E H. apply model_eqb_ok in H. induction H as [|a b l m P Q IH]; [reflexivity|]. rewrite !hash_cons, IH, (E a b P). reflexivity.
Qed.

(** ** get_shells *)
Lemma unpack_part {A} : forall p : part A, exists r, (forall l s, shells_of l s -> shells_of (p :: l) (r ++ s)) /\ forall acc, unpack acc p = acc ++ r.
Proof.
  fix IH 1. intros [a [|]|g].
  - exists [a]. split; [intros l s S; constructor; exact S|intros acc; reflexivity].
  - exists []. split; [intros l s S; constructor; exact S|intros acc; cbn; rewrite app_nil_r; reflexivity].
  - assert (G : exists r, shells_of g r /\ forall acc, fold_left unpack g acc = acc ++ r).
    { induction g as [|p g (r & S & F)].
      - exists []. split; [constructor|]. intros acc. cbn. rewrite app_nil_r. reflexivity.
      - destruct (IH p) as (t & T & U). exists (t ++ r). split; [apply T, S|]. intros acc. cbn. rewrite U, F, app_assoc. reflexivity. }
    destruct G as (r & S & F). exists r. split; [intros l s T; constructor; assumption|]. intros acc. cbn. apply F.
Qed.
Lemma unpack_shells {A} (l : list (part A)) : exists r, shells_of l r /\ forall acc, fold_left unpack l acc = acc ++ r.
Proof.
  induction l as [|p l (r & S & F)].
  - exists []. split; [constructor|]. intros acc. cbn. rewrite app_nil_r. reflexivity.
  - destruct (unpack_part p) as (t & T & U). exists (t ++ r). split; [apply T, S|]. intros acc. cbn. rewrite U, F, app_assoc. reflexivity.
Qed.
Lemma shells_unique {A} (l : list (part A)) r : shells_of l r -> forall s, shells_of l s -> r = s.
Proof.
  induction 1 as [|a l r H IH|a l r H IH|g l r s H1 IH1 H2 IH2]; intros t T; inversion T; subst.
  - reflexivity.
  - f_equal. apply IH. assumption.
  - apply IH. assumption.
  - f_equal; [apply IH1|apply IH2]; assumption.
Qed.
Lemma get_shells_ok {A} (l : list (part A)) r : get_shells l = r <-> shells_of l r.
Proof.
  destruct (unpack_shells l) as (s & S & F). unfold get_shells. rewrite F. cbn. split.
  - intros <-. exact S.
  - intros T. exact (shells_unique l s S r T).
Qed.

(** ** moving models *)
Lemma new_moving_ok {A} (l : list A) frames : (exists m, new_moving l frames = Ok m) <-> forall fr, In fr frames -> length fr = length l.
Proof.
  unfold new_moving, is_consistent. cbn. destruct (forallb _ frames) eqn:E.
  - rewrite forallb_forall in E. split; [|eauto]. intros _ fr I. apply Nat.eqb_eq, E, I.
  - split; [intros [m H]; discriminate|]. intros H. exfalso. enough (forallb (fun fr => (length fr =? length l)%nat) frames = true) by congruence.
    apply forallb_forall. intros fr I. apply Nat.eqb_eq, H, I.
Qed.
Lemma moving_step {A} (fm : A -> frame3 -> res A) l frames m k fr r : new_moving l frames = Ok m -> nth_error frames k = Some fr ->
  step_volume_model fm m k = Ok r -> length r = length l /\
  forall n p f, nth_error l n = Some p -> nth_error fr n = Some f -> exists q, nth_error r n = Some q /\ fm p f = Ok q.
Proof.
  intros N K. assert (L : length fr = length l) by (apply (proj1 (new_moving_ok l frames) (ex_intro _ m N)), (nth_error_In _ _ K)).
  unfold new_moving in N. destruct (is_consistent _); [|discriminate]. injection N as <-.
  unfold step_volume_model. cbn [mv_frames mv_primitives]. rewrite K. intros H. apply mapM_ok in H. unfold all_results in H. clear K.
  revert fr L r H. induction l as [|a l IH]; intros [|f0 fr] L r H; cbn in *; try discriminate.
  - inversion H. split; [reflexivity|]. intros [|n]; discriminate.
  - inversion H as [|? q ? s E F]; subst. injection L as L. destruct (IH fr L s F) as [P Q]. split; [cbn; rewrite P; reflexivity|].
    intros [|n] p f; cbn; [|apply Q]. intros X Y. injection X as <-. injection Y as <-. exists q. split; [reflexivity|exact E].
Qed.
Lemma model_hash_sum {A} (h : A -> Z) l : model_hash h l = fold_right Z.add 0%Z (map h l).
Proof. induction l as [|a l IH]; [reflexivity|]. rewrite hash_cons, IH. reflexivity. Qed.
Lemma missing_step {A} (fm : A -> frame3 -> res A) l frames m k : new_moving l frames = Ok m -> (length frames <= k)%nat ->
  step_volume_model fm m k = Err IndexError.
Proof.
  unfold new_moving. destruct (is_consistent _); [|discriminate]. intros H. injection H as <-. intros K.
  unfold step_volume_model. cbn [mv_frames]. apply nth_error_None in K. rewrite K. reflexivity.
Qed.
Lemma full_step {A} (fm : A -> frame3 -> res A) l frames m k fr : new_moving l frames = Ok m -> nth_error frames k = Some fr ->
  (forall p f, In p l -> In f fr -> exists q, fm p f = Ok q) -> exists r, step_volume_model fm m k = Ok r.
Proof.
  unfold new_moving. destruct (is_consistent _); [|discriminate]. intros H. injection H as <-. intros K F.
  unfold step_volume_model. cbn [mv_frames mv_primitives]. rewrite K. clear K. revert fr F. induction l as [|a l IH]; intros [|f fr] F; cbn; eauto.
  destruct (F a f (or_introl eq_refl) (or_introl eq_refl)) as [q ->]. cbn.
  destruct (IH fr) as [r ->]; [intros p g I J; apply F; right; assumption|]. cbn. eauto.
Qed.
