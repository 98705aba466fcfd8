From Coq Require Import Reals Lra List Lia.
From Verif.Model Require Import Base RBase Vec Frame Geometry Curves Edges Arcs Rounded.
From Verif.Spec Require Import VecSpec CurvesSpec RoundedSpec.
From Verif.Proofs Require Import VecP RoundedP RoundedP2 RoundedP3 RoundedP4 RoundedP5 RoundedP6 RoundedP7 RoundedP9.
Import ListNotations.
Open Scope R_scope.

Lemma unit_neg p q w : unit_vector2 (sub2 p q) = Ok w -> unit_vector2 (sub2 q p) = Ok (neg2 w).
Proof.
  intros U. apply unit2_spec in U as (U1 & U2 & U3). apply (unit_of _ (norm2 (sub2 p q))); auto.
  - apply norm2_1 in U1. apply norm2_of_sq; [lra|]. rewrite Rmult_1_r, <- U1. unfold dot2, neg2; cbn [x2 y2]; ring.
  - set (k := norm2 (sub2 p q)) in *. pose proof (f_equal x2 U2) as X. pose proof (f_equal y2 U2) as Y. unfold mul2, sub2 in X, Y. cbn [x2 y2] in X, Y. unfold mul2, neg2, sub2. apply vec2_ext; cbn [x2 y2]; lra.
Qed.
Lemma normal_neg u : neg2 (normal_vector2 u) = normal_vector2 (neg2 u). Proof. unfold neg2, normal_vector2; apply vec2_ext; cbn [x2 y2]; ring. Qed.
Definition rounded_index (s : rls) (i : nat) : Prop := (i < length (rpts s))%nat /\ (rclosed s = true \/ (0 < i /\ S i < length (rpts s))%nat).
Lemma corner_exists s i : (2 <= length (rpts s))%nat -> rounded_index s i -> exists p1 p p2, corner s i p1 p p2.
Proof.
  intros N [I C]. set (n := length (rpts s)) in *.
  assert (X : forall k, (k < n)%nat -> exists p, nth_error (rpts s) k = Some p) by (intros k K; destruct (nth_error (rpts s) k) eqn:E; eauto; apply nth_error_None in E; unfold n in K; lia).
  destruct (X ((i + n - 1) mod n)%nat) as [p1 P1]; [apply Nat.mod_upper_bound; lia|]. destruct (X i I) as [p P].
  destruct (rclosed s) eqn:CL.
  - destruct (X ((i + 1) mod n)%nat) as [p2 P2]; [apply Nat.mod_upper_bound; lia|]. exists p1, p, p2. unfold corner. rewrite CL. fold n. repeat split; auto; discriminate.
  - destruct C as [C|C]; [discriminate|]. destruct (X (i + 1)%nat) as [p2 P2]; [lia|]. exists p1, p, p2. unfold corner. rewrite CL. fold n. repeat split; auto; discriminate.
Qed.
(** the vectors of a corner *)
Lemma corner_vectors s vs i p1 p p2 : offset_vectors s = Ok vs -> (2 <= length (rpts s))%nat -> rounded_index s i -> corner s i p1 p p2 ->
  exists u v, getpred vs (2 * i) = Ok u /\ geti vs (2 * i) = Ok v /\ unit_vector2 (sub2 p1 p) = Ok u /\ unit_vector2 (sub2 p2 p) = Ok v.
Proof.
  intros H N [I C] K. destruct (vectors_spec s vs H) as (L & A & B); [lia|]. cbv zeta in *. unfold corner in K. set (n := length (rpts s)) in *. destruct K as (_ & P1 & P & PC & PO).
  assert (IN : exists u, getpred vs (2 * i) = Ok u /\ unit_vector2 (sub2 p1 p) = Ok u).
  { destruct i as [|i].
    - destruct C as [C|C]; [|lia]. replace (0 + n - 1)%nat with (n - 1)%nat in P1 by lia. rewrite Nat.mod_small in P1 by lia. destruct (B C p1 p P1 P) as (v & w & V & W & _ & U2). exists w. split; auto.
      cbn [Nat.mul getpred]. unfold getlast. apply geti_ok. rewrite L, C. replace (2 * (n - 1) + 2 - 1)%nat with (S (2 * (n - 1))) by lia. auto.
    - replace (S i + n - 1)%nat with (i + 1 * n)%nat in P1 by lia. rewrite Nat.mod_add, Nat.mod_small in P1 by lia. destruct (A i ltac:(lia) p1 p P1 P) as (v & w & V & W & _ & U2). exists w. split; auto.
      replace (2 * S i)%nat with (S (S (2 * i))) by lia. cbn [getpred]. apply geti_ok. auto. }
  assert (OUT : exists v, geti vs (2 * i) = Ok v /\ unit_vector2 (sub2 p2 p) = Ok v).
  { destruct (Nat.eq_dec (S i) n) as [E|E].
    - destruct C as [C|C]; [|lia]. specialize (PC C). replace (i + 1)%nat with (0 + 1 * n)%nat in PC by lia. rewrite Nat.mod_add, Nat.mod_small in PC by lia.
      replace (n - 1)%nat with i in B by lia. destruct (B C p p2 P PC) as (v & w & V & W & U1 & _). exists v. split; auto. apply geti_ok; auto.
    - assert (P2 : nth_error (rpts s) (S i) = Some p2).
      { destruct (rclosed s) eqn:CL; [|replace (S i) with (i + 1)%nat by lia; auto]. specialize (PC eq_refl). replace (i + 1)%nat with (S i) in PC by lia. rewrite Nat.mod_small in PC by lia. auto. }
      destruct (A i ltac:(lia) p p2 P P2) as (v & w & V & W & U1 & _). exists v. split; auto. apply geti_ok; auto. }
  destruct IN as (u & U & U'). destruct OUT as (v & V & V'). exists u, v. auto.
Qed.
Lemma clear_units p1 p p2 u v : clear_corner p1 p p2 -> unit_vector2 (sub2 p1 p) = Ok u -> unit_vector2 (sub2 p2 p) = Ok v -> add2 u v = V2 0 0 \/ / 10 ^ 6 < norm2 (add2 u v).
Proof.
  intros (u' & v' & U1 & V1 & (k & K & E) & (k' & K' & E') & D) U V. pose proof (unit_of u' k _ U1 K E) as U'. pose proof (unit_of v' k' _ V1 K' E') as V'.
  rewrite U in U'. rewrite V in V'. apply Ok_inj in U'. apply Ok_inj in V'. subst. exact D.
Qed.
(** the new point and the new radius of a corner *)
Definition new_radius (s : rls) (off : R) (i : nat) (p1 p p2 : vec2) (nr : option (nat * R)) : Prop :=
  match lookup i (rrad s) with
  | None => nr = None
  | Some r => let r' := if Rleb 0 (cross2 (sub2 p p1) (sub2 p2 p)) then r - off else r + off in
              if Rltb 0 r' then nr = Some (i, r') else nr = if radapt s then Some (i, / 10 ^ 6) else None
  end.
Lemma corner_offset s vs off i p1 p p2 q nr : offset_vectors s = Ok vs -> (2 <= length (rpts s))%nat -> rounded_index s i -> corner s i p1 p p2 -> clear_corner p1 p p2 -> offset_corner s vs off i = Ok (q, nr) ->
  (forall n, left_normal p1 p n -> dot2 (sub2 q p) n = off) /\ (forall n, left_normal p p2 n -> dot2 (sub2 q p) n = off) /\ new_radius s off i p1 p p2 nr.
Proof.
  intros H N I K CL O. destruct (corner_vectors s vs i p1 p p2 H N I K) as (u & v & GU & GV & U & V).
  pose proof (unit2_spec _ _ U) as (U1 & U2 & U3). pose proof (unit2_spec _ _ V) as (V1 & V2 & V3).
  destruct (offset_corner_spec s vs off i u v p q nr GU GV U1 V1 (clear_units _ _ _ _ _ CL U V)) as (D1 & D2 & R); auto; [destruct K as (_ & _ & P & _); apply geti_ok; auto|].
  split; [|split].
  - intros n Ln. rewrite normal_neg in D1. rewrite (normal_of p1 p (neg2 u) n); auto. apply unit_neg; auto.
  - intros n Ln. rewrite (normal_of p p2 v n); auto.
  - unfold new_radius. destruct (lookup i (rrad s)) as [r|]; auto.
    assert (E : Rleb 0 (cross2 (sub2 p p1) (sub2 p2 p)) = Rleb 0 (cross2 v u)).
    { set (a := norm2 (sub2 p1 p)) in *. set (b := norm2 (sub2 p2 p)) in *.
      assert (X : cross2 (sub2 p p1) (sub2 p2 p) = a * b * cross2 v u).
      { rewrite <- V2. transitivity (cross2 (neg2 (sub2 p1 p)) (mul2 v b)); [unfold cross2, neg2, sub2; cbn [x2 y2]; ring|]. rewrite <- U2. unfold cross2, neg2, mul2; cbn [x2 y2]; ring. }
      rewrite X. assert (0 < a * b) by (apply Rmult_lt_0_compat; auto). destruct (Rleb 0 (cross2 v u)) eqn:F; [apply Rleb_spec in F; apply Rleb_spec; nra|apply Rleb_false in F; apply Rleb_false; nra]. }
    rewrite E. exact R.
Qed.
(** the corners of the whole offset *)
Lemma nth_seq a m k : (k < m)%nat -> nth_error (seq a m) k = Some (a + k)%nat.
Proof. intros K. rewrite nth_error_nth' with (d := 0%nat); [rewrite seq_nth; auto|rewrite seq_length; auto]. Qed.
Lemma offset_points s off s' : rls_offset s off = Ok s' -> (2 <= length (rpts s))%nat -> exists vs, offset_vectors s = Ok vs /\
  length (rpts s') = length (rpts s) /\ rclosed s' = rclosed s /\ radapt s' = radapt s /\
  (forall i, rounded_index s i -> exists q nr, nth_error (rpts s') i = Some q /\ offset_corner s vs off i = Ok (q, nr) /\ (forall e, nr = Some e -> In e (rrad s'))) /\
  (forall e, In e (rrad s') -> exists i q, rounded_index s i /\ offset_corner s vs off i = Ok (q, Some e)) /\
  (rclosed s = false -> exists v p, nth_error vs 0 = Some v /\ nth_error (rpts s) 0 = Some p /\ nth_error (rpts s') 0 = Some (add2 p (mul2 (normal_vector2 v) off))) /\
  (rclosed s = false -> exists v p, nth_error vs (length vs - 1) = Some v /\ nth_error (rpts s) (length (rpts s) - 1) = Some p /\ nth_error (rpts s') (length (rpts s) - 1) = Some (add2 p (mul2 (neg2 (normal_vector2 v)) off))).
Proof.
  intros H N. unfold rls_offset in H. set (n := length (rpts s)) in *. apply bind_ok in H as (vs & V & H). exists vs. split; [auto|]. cbv zeta in H.
  apply bind_ok in H as (cs & C & H). apply bind_ok in H as (pts & P & H). apply Ok_inj in H. subst s'. cbn [rpts rrad rclosed radapt].
  pose proof (mapM_length _ _ _ C) as LC.
  assert (SOMES : forall (l : list (option (nat * R))) e, In e (somes l) <-> In (Some e) l).
  { intros l e. induction l as [|[a|] l IH]; cbn [somes In]; [tauto| |].
    - rewrite IH. split; intros [E|E]; auto; left; congruence.
    - rewrite IH. split; [auto|intros [E|E]; [discriminate|auto]]. }
  assert (RAD : forall e, In e (somes (map snd cs)) -> exists i q, rounded_index s i /\ offset_corner s vs off i = Ok (q, Some e)).
  { intros e E. apply SOMES in E. apply in_map_iff in E as ([q nr] & E & F). cbn [snd] in E. subst nr. destruct (mapM_in _ _ _ _ C F) as (i & I & O). exists i, q. split; auto.
    unfold rounded_index. fold n. destruct (rclosed s); apply in_seq in I; split; auto; try lia; right; lia. }
  destruct (rclosed s) eqn:CL.
  - apply Ok_inj in P. subst pts. rewrite seq_length in LC. split; [rewrite map_length; auto|]. split; [auto|]. split; [auto|]. split; [|split; [auto|split; discriminate]].
    intros i [I _]. fold n in I. destruct (mapM_nth _ _ _ i i C (nth_seq 0 n i I)) as ([q nr] & X & O). exists q, nr. split; [rewrite nth_error_map, X; auto|]. split; auto.
    intros e ->. apply SOMES. apply in_map_iff. exists (q, Some e). split; auto. apply nth_error_In in X; auto.
  - rewrite seq_length in LC. repeat (apply bind_ok in P as (? & ? & P)). rename x into v0, x0 into p0, x1 into vn, x2 into pn. apply Ok_inj in P. subst pts.
    unfold getlast in *. apply geti_ok in H, H0, H1, H2. fold n in H2.
    assert (LEN : length (add2 p0 (mul2 (normal_vector2 v0) off) :: map fst cs ++ [add2 pn (mul2 (neg2 (normal_vector2 vn)) off)]) = n).
    { cbn [length]. rewrite app_length, map_length. cbn [length]. lia. }
    split; [exact LEN|]. split; [auto|]. split; [auto|]. split; [|split; [auto|split]].
    + intros i [_ I]. fold n in I. rewrite CL in I. destruct I as [I|I]; [discriminate|].
      destruct (mapM_nth _ _ _ (i - 1) i C) as ([q nr] & X & O); [rewrite nth_seq by lia; f_equal; lia|]. exists q, nr. split; [|split; auto].
      * destruct i as [|i]; [lia|]. cbn [nth_error]. replace (S i - 1)%nat with i in X by lia. rewrite nth_error_app1 by (rewrite map_length; apply nth_error_Some; congruence). rewrite nth_error_map, X. auto.
      * intros e ->. apply SOMES. apply in_map_iff. exists (q, Some e). split; auto. apply nth_error_In in X; auto.
    + intros _. exists v0, p0. cbn [nth_error]. auto.
    + intros _. exists vn, pn. split; auto. split; auto. destruct n as [|n']; [lia|]. cbn [Nat.sub]. rewrite Nat.sub_0_r. destruct n' as [|n']; [lia|]. cbn [nth_error].
      rewrite nth_error_app2 by (rewrite map_length; lia). rewrite map_length. replace (n' - length cs)%nat with 0%nat by lia. auto.
Qed.
(** every side moves by the offset towards its left *)
Lemma offset_sides s off s' : rls_offset s off = Ok s' -> (2 <= length (rpts s))%nat ->
  (forall i p1 p p2, corner s i p1 p p2 -> (rclosed s = true \/ 0 < i)%nat -> clear_corner p1 p p2) ->
  length (rpts s') = length (rpts s) /\ rclosed s' = rclosed s /\ radapt s' = radapt s /\
  forall i j p q p' q' n, is_side s i j -> nth_error (rpts s) i = Some p -> nth_error (rpts s) j = Some q -> nth_error (rpts s') i = Some p' -> nth_error (rpts s') j = Some q' ->
    left_normal p q n -> dot2 (sub2 p' p) n = off /\ dot2 (sub2 q' q) n = off.
Proof.
  intros H N CL. destruct (offset_points s off s' H N) as (vs & V & L & C' & A' & CO & _ & E0 & EN). split; [auto|]. split; [auto|]. split; [auto|].
  intros i j p q p' q' n SD P Q P' Q' Ln.
  assert (CI : forall k, rounded_index s k -> exists p1 p0 p2 q0, corner s k p1 p0 p2 /\ nth_error (rpts s) k = Some p0 /\ nth_error (rpts s') k = Some q0 /\ (forall m, left_normal p1 p0 m -> dot2 (sub2 q0 p0) m = off) /\ (forall m, left_normal p0 p2 m -> dot2 (sub2 q0 p0) m = off)).
  { intros k I. destruct (corner_exists s k N I) as (p1 & p0 & p2 & K). destruct (CO k I) as (q0 & nr & Q0 & O & _).
    destruct (corner_offset s vs off k p1 p0 p2 q0 nr V N I K) as (D1 & D2 & _); auto; [apply (CL k); auto; destruct I as [_ [I|I]]; auto; right; lia|].
    exists p1, p0, p2, q0. split; auto. split; [apply K|auto]. }
  destruct (vectors_spec s vs V) as (LV & AV & _); [lia|]. cbv zeta in *. unfold is_side in SD. set (len := length (rpts s)) in *.
  split.
  - destruct (rclosed s) eqn:CLO; [|destruct (Nat.eq_dec i 0) as [Z|Z]].
    + destruct (CI i) as (p1 & p0 & p2 & q0 & K & P0 & Q0 & _ & D2); [split; fold len; [apply nth_error_Some; congruence|auto]|].
      rewrite P in P0. rewrite P' in Q0. injection P0 as <-. injection Q0 as <-. apply D2. destruct K as (_ & _ & _ & K & _). specialize (K CLO). fold len in K.
      destruct SD as [[S1 ->]|(_ & S1 & ->)].
      * replace (i + 1)%nat with (S i) in K by lia. rewrite Nat.mod_small in K by lia. congruence.
      * replace (i + 1)%nat with (0 + 1 * len)%nat in K by lia. rewrite Nat.mod_add, Nat.mod_small in K by lia. congruence.
    + subst i. destruct SD as [[S1 ->]|(SD & _)]; [|discriminate]. destruct (E0 eq_refl) as (v & p0 & X & P0 & Q0). rewrite P in P0. rewrite P' in Q0. injection P0 as <-. injection Q0 as ->.
      destruct (AV 0%nat S1 p q P Q) as (v' & w' & X1 & X2 & U & _). replace (2 * 0)%nat with 0%nat in X1 by lia. rewrite X in X1. injection X1 as <-. rewrite (normal_of p q v n U Ln).
      apply unit2_spec in U as (U1 & _). apply norm2_1 in U1. unfold dot2 in U1. transitivity (off * (x2 v * x2 v + y2 v * y2 v)); [unfold dot2, sub2, add2, mul2, normal_vector2; cbn [x2 y2]; ring|rewrite U1; ring].
    + destruct SD as [[S1 ->]|(SD & _)]; [|discriminate].
      destruct (CI i) as (p1 & p0 & p2 & q0 & K & P0 & Q0 & _ & D2); [split; fold len; [lia|right; lia]|].
      rewrite P in P0. rewrite P' in Q0. injection P0 as <-. injection Q0 as <-. apply D2. destruct K as (_ & _ & _ & _ & K). specialize (K CLO). replace (i + 1)%nat with (S i) in K by lia. congruence.
  - destruct (rclosed s) eqn:CLO; [|destruct (Nat.eq_dec (S j) len) as [Z|Z]].
    + destruct (CI j) as (p1 & p0 & p2 & q0 & K & P0 & Q0 & D1 & _); [split; fold len; [apply nth_error_Some; congruence|auto]|].
      rewrite Q in P0. rewrite Q' in Q0. injection P0 as <-. injection Q0 as <-. apply D1. destruct K as (_ & K & _). fold len in K.
      destruct SD as [[S1 ->]|(_ & S1 & ->)].
      * replace (S i + len - 1)%nat with (i + 1 * len)%nat in K by lia. rewrite Nat.mod_add, Nat.mod_small in K by lia. congruence.
      * replace (0 + len - 1)%nat with i in K by lia. rewrite Nat.mod_small in K by lia. congruence.
    + destruct SD as [[S1 ->]|(SD & _)]; [|discriminate]. destruct (EN eq_refl) as (v & p0 & X & P0 & Q0). replace (len - 1)%nat with (S i) in P0, Q0 by lia. rewrite Q in P0. rewrite Q' in Q0. injection P0 as <-. injection Q0 as ->.
      destruct (AV i S1 p q P Q) as (v' & w' & X1 & X2 & U & W). rewrite LV in X. replace (2 * (len - 1) + 0 - 1)%nat with (S (2 * i)) in X by lia. rewrite X in X2. injection X2 as <-. rewrite (normal_of p q (neg2 v) n (unit_neg _ _ _ W) Ln).
      apply unit2_spec in W as (U1 & _). apply norm2_1 in U1. unfold dot2 in U1. transitivity (off * (x2 v * x2 v + y2 v * y2 v)); [unfold dot2, sub2, add2, mul2, neg2, normal_vector2; cbn [x2 y2]; ring|rewrite U1; ring].
    + destruct SD as [[S1 ->]|(SD & _)]; [|discriminate].
      destruct (CI (S i)) as (p1 & p0 & p2 & q0 & K & P0 & Q0 & D1 & _); [split; fold len; [lia|right; lia]|].
      rewrite Q in P0. rewrite Q' in Q0. injection P0 as <-. injection Q0 as <-. apply D1. destruct K as (_ & K & _). fold len in K. replace (S i + len - 1)%nat with (i + 1 * len)%nat in K by lia. rewrite Nat.mod_add, Nat.mod_small in K by lia. congruence.
Qed.
(** the radii *)
Lemma offset_radii s off s' i r p1 p p2 : rls_offset s off = Ok s' -> (2 <= length (rpts s))%nat -> lookup i (rrad s) = Some r -> (rclosed s = true \/ 0 < i)%nat ->
  corner s i p1 p p2 -> clear_corner p1 p p2 ->
  (0 <= cross2 (sub2 p p1) (sub2 p2 p) -> (0 < r - off -> In (i, r - off) (rrad s')) /\ (r - off <= 0 -> radapt s = false -> ~ In i (map fst (rrad s')))) /\
  (cross2 (sub2 p p1) (sub2 p2 p) < 0 -> (0 < r + off -> In (i, r + off) (rrad s')) /\ (r + off <= 0 -> radapt s = false -> ~ In i (map fst (rrad s')))) /\
  forall r', In (i, r') (rrad s') -> 0 < r'.
Proof.
  intros H N LK CI K CC. destruct (offset_points s off s' H N) as (vs & V & L & C' & A' & CO & RAD & _).
  assert (I : rounded_index s i).
  { destruct K as (K1 & _ & _ & _ & K2). split; auto. destruct (rclosed s) eqn:C; auto. right. destruct CI as [CI|CI]; [discriminate|]. split; auto. specialize (K2 eq_refl). replace (i + 1)%nat with (S i) in K2 by lia. apply nth_error_Some. congruence. }
  destruct (CO i I) as (q & nr & Q & O & IN). destruct (corner_offset s vs off i p1 p p2 q nr V N I K CC O) as (_ & _ & NR).
  assert (UNI : forall r', In (i, r') (rrad s') -> nr = Some (i, r')).
  { intros r' E. destruct (RAD _ E) as (k & qk & Ik & Ok_). destruct (corner_exists s k N Ik) as (a1 & a & a2 & Ka).
    assert (k = i).
    { clear - Ok_. unfold offset_corner in Ok_. apply bind_ok in Ok_ as (? & _ & Ok_). apply bind_ok in Ok_ as (? & _ & Ok_). apply bind_ok in Ok_ as ([ov ck] & _ & Ok_). apply bind_ok in Ok_ as (? & _ & Ok_). apply bind_ok in Ok_ as (? & _ & Ok_).
      match type of Ok_ with (if ?b then _ else _) = _ => destruct b; [discriminate|] end. cbv zeta in Ok_. match type of Ok_ with (if ?b then _ else _) = _ => destruct b; [discriminate|] end.
      apply bind_ok in Ok_ as (? & _ & Ok_). apply Ok_inj in Ok_. apply pair_equal_spec in Ok_ as [_ E]. destruct (lookup k (rrad s)); [|discriminate].
      match type of E with (if ?b then _ else _) = _ => destruct b; [congruence|] end. destruct (radapt s); congruence. }
    subst k. rewrite O in Ok_. apply Ok_inj in Ok_. congruence. }
  unfold new_radius in NR. rewrite LK in NR. cbv zeta in NR.
  assert (T : 0 < / 10 ^ 6) by (apply Rinv_0_lt_compat, pow_lt; lra).
  split; [|split].
  - intros S. apply Rleb_spec in S. rewrite S in NR. split; intros W.
    + apply Rltb_spec in W. rewrite W in NR. auto.
    + intros AD IK. apply Rltb_false in W. rewrite W, AD in NR. apply in_map_iff in IK as ([k r'] & E & IK). cbn in E. subst k. apply UNI in IK. congruence.
  - intros S. apply Rleb_false in S. rewrite S in NR. split; intros W.
    + apply Rltb_spec in W. rewrite W in NR. auto.
    + intros AD IK. apply Rltb_false in W. rewrite W, AD in NR. apply in_map_iff in IK as ([k r'] & E & IK). cbn in E. subst k. apply UNI in IK. congruence.
  - intros r' E. apply UNI in E. subst nr. set (r1 := if Rleb 0 _ then r - off else r + off) in NR. destruct (Rltb 0 r1) eqn:F; [apply Rltb_spec in F; injection NR as ->; auto|]. destruct (radapt s); [injection NR as ->; auto|discriminate].
Qed.
