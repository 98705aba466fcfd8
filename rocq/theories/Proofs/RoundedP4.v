From Coq Require Import Reals Lra List Lia Sorted.
From Verif.Model Require Import Base RBase Vec Frame Geometry Curves Edges Arcs Rounded.
From Verif.Spec Require Import VecSpec CurvesSpec RoundedSpec.
From Verif.Proofs Require Import VecP RoundedP RoundedP2 RoundedP3.
Import ListNotations.
Open Scope R_scope.

Lemma lookup_in {A} k (l : list (nat * A)) a : lookup k l = Some a -> In (k, a) l.
Proof. induction l as [|[j b] l IH]; cbn; [discriminate|]. destruct (j =? k)%nat eqn:E; [intros H; inversion H; apply Nat.eqb_eq in E; subst; auto|auto]. Qed.
Lemma lookup_none {A} k (l : list (nat * A)) : lookup k l = None <-> ~ In k (map fst l).
Proof.
  induction l as [|[j b] l IH]; cbn; [tauto|]. destruct (j =? k)%nat eqn:E.
  - apply Nat.eqb_eq in E. split; [discriminate|intros H; exfalso; auto].
  - apply Nat.eqb_neq in E. rewrite IH. tauto.
Qed.
Lemma in_lookup {A} k (l : list (nat * A)) a : NoDup (map fst l) -> In (k, a) l -> lookup k l = Some a.
Proof.
  induction l as [|[j b] l IH]; cbn; [tauto|]. intros N. inversion N as [|? ? N1 N2]; subst. intros [H|H].
  - inversion H. subst. rewrite Nat.eqb_refl. auto.
  - destruct (j =? k)%nat eqn:E; [|auto]. apply Nat.eqb_eq in E. subst. destruct N1. apply (in_map fst) in H. exact H.
Qed.
Lemma last_point s i : (0 < i < length (rpts s))%nat -> ((i + length (rpts s) - 1) mod length (rpts s) = i - 1)%nat.
Proof. intros H. replace (i + length (rpts s) - 1)%nat with (i - 1 + 1 * length (rpts s))%nat by lia. rewrite Nat.mod_add, Nat.mod_small; lia. Qed.
Lemma get_points_corner s i p1 pi p2 : get_points s i = Ok (p1, pi, p2) <-> corner s i p1 pi p2.
Proof.
  unfold get_points, corner. set (n := length (rpts s)).
  assert (G : forall p, geti (rpts s) i = Ok p -> (i < n)%nat) by (intros p H; apply geti_ok in H; apply nth_error_Some; congruence).
  assert (P : (i < n)%nat -> forall p, getpred (rpts s) i = Ok p <-> nth_error (rpts s) ((i + n - 1) mod n) = Some p).
  { intros L p. unfold getpred, getlast. destruct i as [|k].
    - rewrite geti_ok. fold n. replace (0 + n - 1)%nat with (n - 1)%nat by lia. rewrite Nat.mod_small by lia. tauto.
    - rewrite geti_ok. unfold n. rewrite last_point by (fold n; lia). replace (S k - 1)%nat with k by lia. tauto. }
  assert (NX : (i < n)%nat -> (if rclosed s then if (i <? n - 1)%nat then geti (rpts s) (i + 1) else geti (rpts s) 0 else geti (rpts s) (i + 1)) = Ok p2 <->
    (rclosed s = true -> nth_error (rpts s) ((i + 1) mod n) = Some p2) /\ (rclosed s = false -> nth_error (rpts s) (i + 1) = Some p2)).
  { intros L. destruct (rclosed s).
    - destruct (i <? n - 1)%nat eqn:E; rewrite geti_ok; [apply Nat.ltb_lt in E|apply Nat.ltb_ge in E].
      + rewrite Nat.mod_small by lia. intuition discriminate.
      + replace (i + 1)%nat with (0 + 1 * n)%nat by lia. rewrite Nat.mod_add by lia. rewrite Nat.mod_small by lia. intuition discriminate.
    - rewrite geti_ok. intuition discriminate. }
  fold n. split.
  - intros H. apply bind_ok in H as (a & A & H). apply bind_ok in H as (b & B & H). apply bind_ok in H as (c & C & H). apply Ok_inj in H.
    apply pair_equal_spec in H as [H ->]. apply pair_equal_spec in H as [-> ->]. pose proof (G _ B) as L. apply (P L) in A. apply (NX L) in C. apply geti_ok in B. tauto.
  - intros (L & A & B & C). apply (P L) in A. apply (NX L) in C. apply geti_ok in B. rewrite A. cbn [bind]. rewrite B. cbn [bind]. rewrite C. reflexivity.
Qed.
Lemma corner_fun s i p1 pi p2 q1 qi q2 : corner s i p1 pi p2 -> corner s i q1 qi q2 -> p1 = q1 /\ pi = qi /\ p2 = q2.
Proof. intros A B. apply get_points_corner in A, B. rewrite A in B. apply Ok_inj in B. inversion B. auto. Qed.
Lemma cut_features s i r p1 pi p2 a : lookup i (rrad s) = Some r -> 0 < r -> corner s i p1 pi p2 -> half_angle p1 pi p2 a -> / 10 ^ 6 < 2 * cos a ->
  exists c p3 q p4, arc_features s i = Ok (p3, q, p4, r / tan a, a) /\ rounds p1 pi p2 r (r / tan a) c p3 q p4.
Proof.
  intros L Hr C H W. destruct (arc_features_ok p1 pi p2 r a H Hr W) as (c & p3 & q & p4 & E & Rd). exists c, p3, q, p4. split; auto.
  unfold arc_features. rewrite L. apply get_points_corner in C. rewrite C. cbn [bind]. exact E.
Qed.
Lemma mapM_in {A B} (f : A -> res B) l r b : mapM f l = Ok r -> In b r -> exists a, In a l /\ f a = Ok b.
Proof.
  revert r. induction l as [|a l IH]; cbn [mapM]; intros r H I; [apply Ok_inj in H; subst; destruct I|].
  apply bind_ok in H as (b' & H1 & H). apply bind_ok in H as (r' & H2 & H). apply Ok_inj in H. subst r. destruct I as [<- |I]; [exists a; cbn; auto|]. destruct (IH _ H2 I) as (x & X & Y). exists x. cbn. auto.
Qed.
Lemma mapM_keys (f : nat * R -> res (nat * arc2)) l r : (forall e b, f e = Ok b -> fst b = fst e) -> mapM f l = Ok r -> map fst r = map fst l.
Proof.
  intros K. revert r. induction l as [|a l IH]; cbn [mapM]; intros r H; [apply Ok_inj in H; subst; auto|].
  apply bind_ok in H as (b & H1 & H). apply bind_ok in H as (r' & H2 & H). apply Ok_inj in H. subst r. cbn. rewrite (K _ _ H1), (IH _ H2). auto.
Qed.
(** the arcs drawn by _primitives *)
Definition draw_arcs (s : rls) (rad : list (nat * R)) : res (list (nat * arc2)) :=
  mapM (fun e => do (p3, q, p4, _, _) <- arc_features (Rls (rpts s) rad (rclosed s) (radapt s)) (fst e);
                 do a <- arc2_from_3_points p3 q p4; Ok (fst e, a)) rad.
Lemma draw_keys s rad arcs : draw_arcs s rad = Ok arcs -> map fst arcs = map fst rad.
Proof.
  apply mapM_keys. intros e b H. apply bind_ok in H as ([[[[p3 q] p4] d] a] & _ & H). apply bind_ok in H as (c & _ & H). apply Ok_inj in H. subst b. auto.
Qed.
Lemma draw_arc s rad arcs i a d : draw_arcs s rad = Ok arcs -> NoDup (map fst rad) -> lookup i arcs = Some a -> cut s rad i d ->
  exists r p1 pi p2 al c p3 q p4, In (i, r) rad /\ corner s i p1 pi p2 /\ half_angle p1 pi p2 al /\ d = r / tan al /\ rounds p1 pi p2 r d c p3 q p4 /\ center2 (ac a) = c /\ cr2 (ac a) = r /\ ast a = p3 /\ aen a = p4 /\ arc2_from_3_points p3 q p4 = Ok a.
Proof.
  intros H N L C. pose proof (draw_keys _ _ _ H) as K. apply lookup_in in L.
  destruct C as [[NI _]|(r & p1 & pi & p2 & al & I & Hr & CO & HA & W & ->)]; [destruct NI; rewrite <- K; apply (in_map fst) in L; exact L|].
  destruct (mapM_in _ _ _ _ H L) as ([i' r'] & I' & E). cbn [fst] in E.
  apply bind_ok in E as ([[[[p3 q] p4] d] a'] & E1 & E). apply bind_ok in E as (b & E2 & E). apply Ok_inj in E. apply pair_equal_spec in E as [-> ->].
  assert (LR : lookup i rad = Some r) by (apply in_lookup; auto).
  destruct (cut_features (Rls (rpts s) rad (rclosed s) (radapt s)) i r p1 pi p2 al LR Hr CO HA W) as (c & p3' & q' & p4' & F & Rd).
  rewrite F in E1. apply Ok_inj in E1. repeat (apply pair_equal_spec in E1 as [E1 ?]; subst). subst.
  destruct (corner_arc _ _ _ _ _ _ _ _ _ _ Rd E2) as (A & B & C' & D). exists r, p1, pi, p2, a', c, p3, q, p4. auto 15.
Qed.
Lemma on_ray_at a b d p : on_ray a b d p -> a <> b -> p = add2 a (mul2 (sub2 b a) (d / point_distance2 a b)) /\ 0 < d.
Proof.
  intros (k & K & E & D) N. unfold point_distance2 in D. rewrite E, norm2_scale, (Rabs_right k) in D by lra.
  assert (L : norm2 (sub2 b a) = point_distance2 a b) by (rewrite dist2_sym; reflexivity). rewrite L in D.
  assert (P : 0 < point_distance2 a b) by (pose proof (norm2_pos (sub2 a b)) as [P|P]; [exact P|exfalso; apply N, dist2_zero; auto]).
  split; [|nra]. replace (d / point_distance2 a b) with k by (rewrite <- D; field; lra). rewrite <- E. unfold add2, sub2. apply vec2_ext; cbn [x2 y2]; ring.
Qed.
Lemma side_corners s i j pi pj a1 b1 c1 a2 b2 c2 : is_side s i j -> nth_error (rpts s) i = Some pi -> nth_error (rpts s) j = Some pj ->
  (corner s i a1 b1 c1 -> b1 = pi /\ c1 = pj) /\ (corner s j a2 b2 c2 -> b2 = pj /\ a2 = pi).
Proof.
  intros SD I J. split; intros (L & A & B & C & D).
  - split; [congruence|]. destruct SD as [[X ->]|(CL & X & ->)].
    + destruct (rclosed s); [specialize (C eq_refl)|specialize (D eq_refl)].
      * rewrite Nat.mod_small in C by lia. replace (i + 1)%nat with (S i) in C by lia. congruence.
      * replace (i + 1)%nat with (S i) in D by lia. congruence.
    + specialize (C CL). replace (i + 1)%nat with (length (rpts s)) in C by lia. rewrite Nat.mod_same in C by lia. congruence.
  - split; [congruence|]. destruct SD as [[X ->]|(CL & X & ->)].
    + rewrite last_point in A by lia. replace (S i - 1)%nat with i in A by lia. congruence.
    + replace (0 + length (rpts s) - 1)%nat with i in A by lia. rewrite Nat.mod_small in A by lia. congruence.
Qed.
Lemma cut_fun s rad i d d' : NoDup (map fst rad) -> cut s rad i d -> cut s rad i d' -> d = d'.
Proof.
  intros N [[A ->]|(r & p1 & pi & p2 & a & I & Hr & C & H & W & ->)] [[A' ->]|(r' & p1' & pi' & p2' & a' & I' & Hr' & C' & H' & W' & ->)]; auto.
  - destruct A. apply (in_map fst) in I'. exact I'.
  - destruct A'. apply (in_map fst) in I. exact I.
  - apply in_lookup in I, I'; auto. destruct (corner_fun _ _ _ _ _ _ _ _ C C') as (<- & <- & <-). rewrite (half_angle_unique _ _ _ _ _ H H'). congruence.
Qed.
(** a straight piece is a part of its side *)
Lemma side_inside s rad arcs check i j l a b : draw_arcs s rad = Ok arcs -> NoDup (map fst rad) -> is_side s i j -> side_fits s rad i j ->
  side_primitives (rpts s) arcs check i j = Ok l -> In (PSeg (a, b)) l -> exists p q, nth_error (rpts s) i = Some p /\ nth_error (rpts s) j = Some q /\ part_of p q a b.
Proof.
  intros H N SD (p & q & di & dj & Pi & Pj & CI & CJ & F) E I. exists p, q. split; auto. split; auto.
  assert (SU : forall x y k, seg_unless_close x y = Ok k -> In (PSeg (a, b)) k -> a = x /\ b = y /\ x <> y).
  { intros x y k. unfold seg_unless_close. destruct (is_close2 x y _); intros Z Z'; [apply Ok_inj in Z; subst; destruct Z'|]. apply seg_ok in Z as [-> ?]. destruct Z' as [Z'|[]]. inversion Z'. subst. auto. }
  assert (SS : forall x y k, seg x y = Ok k -> In (PSeg (a, b)) k -> a = x /\ b = y /\ x <> y).
  { intros x y k Z Z'. apply seg_ok in Z as [-> ?]. destruct Z' as [Z'|[]]. inversion Z'. subst. auto. }
  pose proof (draw_keys _ _ _ H) as K.
  assert (SPLIT : exists x y, a = x /\ b = y /\ x <> y /\ match lookup i arcs with Some a1 => x = aen a1 | None => x = p end /\ match lookup j arcs with Some a2 => y = ast a2 | None => y = q end).
  { unfold side_primitives in E. destruct (lookup i arcs) as [a1|].
    - apply bind_ok in E as (r & E1 & E). apply Ok_inj in E. subst l. destruct I as [I|I]; [discriminate|].
      destruct (lookup j arcs) as [a2|]; [destruct (SU _ _ _ E1 I) as (-> & -> & ?); (eexists _, _; split; [reflexivity|]; split; [reflexivity|]; auto)|].
      apply bind_ok in E1 as (q' & Q & E1). apply geti_ok in Q. assert (q' = q) by congruence. subst q'. destruct check; [destruct (SU _ _ _ E1 I) as (-> & -> & ?)|destruct (SS _ _ _ E1 I) as (-> & -> & ?)]; (eexists _, _; split; [reflexivity|]; split; [reflexivity|]; auto).
    - apply bind_ok in E as (p' & P & E). apply geti_ok in P. assert (p' = p) by congruence. subst p'.
      destruct (lookup j arcs) as [a2|]; [destruct (SU _ _ _ E I) as (-> & -> & ?); (eexists _, _; split; [reflexivity|]; split; [reflexivity|]; auto)|].
      apply bind_ok in E as (q' & Q & E1). apply geti_ok in Q. assert (q' = q) by congruence. subst q'. destruct (SS _ _ _ E1 I) as (-> & -> & ?); (eexists _, _; split; [reflexivity|]; split; [reflexivity|]; auto). }
  destruct SPLIT as (x & y & -> & -> & NE & X & Y).
  assert (CUTN : forall k d, lookup k arcs = None -> cut s rad k d -> d = 0).
  { intros k d L [[_ ->]|(r & _ & _ & _ & _ & I' & _)]; auto. exfalso. apply lookup_none in L. apply L. rewrite K. apply (in_map fst) in I'. exact I'. }
  assert (XI : exists t1, 0 <= t1 /\ x = add2 p (mul2 (sub2 q p) t1) /\ t1 * point_distance2 p q = di).
  { destruct (lookup i arcs) as [a1|] eqn:LI.
    - destruct (draw_arc _ _ _ _ _ _ H N LI CI) as (r & p1 & pi & p2 & al & c & p3 & q0 & p4 & _ & CO & HA & Dd & (_ & OR & _) & _ & _ & _ & A4 & _).
      destruct (side_corners s i j p q p1 pi p2 p p p SD Pi Pj) as [SC _]. destruct (SC CO) as [-> ->].
      assert (NQ : p <> q) by (intros ->; destruct HA as (_ & NN & _); auto).
      destruct (on_ray_at _ _ _ _ OR NQ) as [O1 O2].
      assert (P : 0 < point_distance2 p q) by (pose proof (norm2_pos (sub2 p q)) as [P|P]; [exact P|exfalso; apply NQ, dist2_zero; auto]).
      exists (di / point_distance2 p q). split; [left; apply Rdiv_lt_0_compat; lra|]. split; [congruence|field; lra].
    - exists 0. split; [lra|]. split; [subst x; unfold add2, sub2, mul2; apply vec2_ext; cbn [x2 y2]; ring|]. rewrite (CUTN _ _ LI CI). ring. }
  assert (YJ : exists t2, t2 <= 1 /\ y = add2 p (mul2 (sub2 q p) t2) /\ (1 - t2) * point_distance2 p q = dj).
  { destruct (lookup j arcs) as [a1|] eqn:LJ.
    - destruct (draw_arc _ _ _ _ _ _ H N LJ CJ) as (r & p1 & pi & p2 & al & c & p3 & q0 & p4 & _ & CO & HA & Dd & (OR & _) & _ & _ & A3 & _ & _).
      destruct (side_corners s i j p q p p p p1 pi p2 SD Pi Pj) as [_ SC]. destruct (SC CO) as [-> ->].
      assert (NQ : q <> p) by (intros ->; destruct HA as (NN & _); auto).
      destruct (on_ray_at _ _ _ _ OR NQ) as [O1 O2]. rewrite (dist2_sym q p) in O1.
      assert (P : 0 < point_distance2 p q) by (pose proof (norm2_pos (sub2 p q)) as [P|P]; [exact P|exfalso; apply NQ; symmetry; apply dist2_zero; auto]).
      exists (1 - dj / point_distance2 p q). split; [assert (0 < dj / point_distance2 p q) by (apply Rdiv_lt_0_compat; lra); lra|]. split; [|field; lra].
      rewrite Y, A3, O1. unfold add2, sub2, mul2; apply vec2_ext; cbn [x2 y2]; ring.
    - exists 1. split; [lra|]. split; [subst y; unfold add2, sub2, mul2; apply vec2_ext; cbn [x2 y2]; ring|]. rewrite (CUTN _ _ LJ CJ). ring. }
  destruct XI as (t1 & T1 & E1 & L1). destruct YJ as (t2 & T2 & E2 & L2). exists t1, t2. split; [split; auto|auto].
  assert (PP : 0 <= point_distance2 p q) by apply norm2_pos.
  destruct (Req_dec (point_distance2 p q) 0) as [Z|Z]; [exfalso; apply NE; apply dist2_zero in Z; subst q x y; unfold add2, sub2, mul2; apply vec2_ext; cbn [x2 y2]; ring|].
  assert (t1 <= t2) by (apply Rmult_le_reg_r with (point_distance2 p q); lra). destruct (Req_dec t1 t2) as [->|]; [congruence|lra].
Qed.
(** the whole wire *)
Lemma wire_geometry lp s rad l : rounded_primitives lp s = Ok (rad, l) -> (2 <= length (rpts s))%nat -> NoDup (map fst rad) -> (forall i j, is_side s i j -> side_fits s rad i j) ->
  (forall a b, In (PSeg (a, b)) l -> exists i j p q, is_side s i j /\ nth_error (rpts s) i = Some p /\ nth_error (rpts s) j = Some q /\ part_of p q a b) /\
  (forall a, In (PArc a) l -> exists i r d p1 pi p2 p3 q p4, In (i, r) rad /\ corner s i p1 pi p2 /\ rounds p1 pi p2 r d (center2 (ac a)) p3 q p4 /\ cr2 (ac a) = r /\ ast a = p3 /\ aen a = p4 /\ arc2_from_3_points p3 q p4 = Ok a).
Proof.
  intros H L2 N FT. unfold rounded_primitives in H. apply bind_ok in H as (gs & _ & H). apply bind_ok in H as (rad' & _ & H). apply bind_ok in H as (arcs & A & H). apply bind_ok in H as (l' & P & H). apply Ok_inj in H. apply pair_equal_spec in H as [-> ->].
  fold (draw_arcs s rad) in A. unfold primitives_from_arcs in P. apply bind_ok in P as (ls & P1 & P). apply bind_ok in P as (lc & P2 & P). apply Ok_inj in P. subst l.
  assert (SIDE : forall x, In x (concat ls ++ lc) -> exists i j check m, is_side s i j /\ side_primitives (rpts s) arcs check i j = Ok m /\ In x m).
  { intros x X. apply in_app_or in X as [X|X].
    - apply in_concat in X as (m & M & X). destruct (mapM_in _ _ _ _ P1 M) as (i & I & E). apply in_seq in I. exists i, (i + 1)%nat, true, m. split; auto. left. lia.
    - destruct (rclosed s) eqn:CL; [|apply Ok_inj in P2; subst; destruct X]. exists (length (rpts s) - 1)%nat, 0%nat, false, lc. split; auto. right. split; auto. lia. }
  split.
  - intros a b I. destruct (SIDE _ I) as (i & j & check & m & SD & E & X). destruct (side_inside s rad arcs check i j m a b A N SD (FT _ _ SD) E X) as (p & q & ? & ? & ?). exists i, j, p, q. auto.
  - intros a I. destruct (SIDE _ I) as (i & j & check & m & SD & E & X).
    assert (LI : lookup i arcs = Some a).
    { pose proof (side_arcs _ _ _ _ _ _ E) as Z. assert (IN : In a (arcs_of m)) by (unfold arcs_of; apply in_flat_map; exists (PArc a); cbn; auto). rewrite Z in IN. destruct (lookup i arcs); [destruct IN as [<- |[]]; auto|destruct IN]. }
    destruct (FT _ _ SD) as (p & q & di & dj & _ & _ & CI & _). destruct (draw_arc _ _ _ _ _ _ A N LI CI) as (r & p1 & pi & p2 & al & c & p3 & q0 & p4 & A1 & A2 & _ & _ & A3 & A4 & A5 & A6 & A7 & A8). subst c.
    exists i, r, di, p1, pi, p2, p3, q0, p4. auto 10.
Qed.
