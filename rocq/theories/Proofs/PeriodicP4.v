(** Ends of arcs of tori and spheres. *)
From Coq Require Import List Bool Arith ZArith Reals Lra Lia Psatz.
From Verif.Model Require Import RBase Vec Geometry Periodic Periodic2.
From Verif.Spec Require Import PeriodicSpec PeriodicSpec2.
From Verif.Proofs Require Import VecP GeometryP PeriodicP PeriodicP2.
Open Scope R_scope.

Lemma close_0 a : close_angle (/ 10 ^ 3) a a.
Proof. exists 0%Z. rewrite inv10_3. replace (a - a - 0 * (2 * PI)) with 0 by ring. rewrite Rabs_R0. lra. Qed.
Lemma repaired (c : bool) a r : neighbour a r ->
  let b := if c then repair_start_end_angle_periodicity a r else a in principal b /\ close_angle (/ 10 ^ 3) b a.
Proof. intros (P & Q & C). destruct c; cbn; [destruct (repair_ok _ _ P Q C) as (A & B & _); auto|split; [exact P|apply close_0]]. Qed.
Lemma close_turn k a b : close_angle (/ 10 ^ 3) a b -> close_angle (/ 10 ^ 3) (a + IZR k * (2 * PI)) b.
Proof. intros (n & N). exists (n + k)%Z. rewrite plus_IZR. replace (a + IZR k * (2 * PI) - b - (IZR n + IZR k) * (2 * PI)) with (a - b - IZR n * (2 * PI)) by ring. exact N. Qed.
Lemma ends_of (cut : bool) a b a1 b1 : principal a1 -> close_angle (/ 10 ^ 3) a1 a -> principal b1 -> close_angle (/ 10 ^ 3) b1 b ->
  let '(a', b') := if cut then repair_arc3d_angle_continuity a1 b1 TWO_PI else (a1, b1) in angle_ends cut a b a' b'.
Proof.
  intros P C Q D. destruct cut; cbn.
  - unfold angle_ends, TWO_PI. split; [exact P|]. split; [exact C|]. split; [|exists b1; auto].
    destruct (Rltb a1 b1).
    + replace (b1 - 2 * PI) with (b1 + IZR (-1) * (2 * PI)) by (cbn; ring). apply close_turn, D.
    + replace (b1 + 2 * PI) with (b1 + IZR 1 * (2 * PI)) by (cbn; ring). apply close_turn, D.
  - unfold angle_ends. repeat (split; [assumption|]). exists b1. auto.
Qed.
Lemma arc_torus_ok start end_ u1 u2 u3 u4 after before td pd :
  neighbour (x2 start) (x2 after) -> neighbour (x2 end_) (x2 before) -> neighbour (y2 start) (y2 after) -> neighbour (y2 end_) (y2 before) ->
  let '(s, e) := arc3d_to_toroidal_coordinates_verification start end_ u1 u2 u3 u4 after before td pd in
  angle_ends td (x2 start) (x2 end_) (x2 s) (x2 e) /\ angle_ends pd (y2 start) (y2 end_) (y2 s) (y2 e).
Proof.
  intros N1 N2 N3 N4. unfold arc3d_to_toroidal_coordinates_verification, toroidal_repair_start_end_angle_periodicity. cbn [x2 y2].
  destruct (repaired (u1 || Reqb (Rabs (x2 start)) (1 / 2 * PI)) _ _ N1) as [A1 B1].
  destruct (repaired (u2 || Reqb (Rabs (x2 end_)) (1 / 2 * PI)) _ _ N2) as [A2 B2].
  destruct (repaired (u3 || Reqb (Rabs (y2 start)) (1 / 2 * PI)) _ _ N3) as [A3 B3].
  destruct (repaired (u4 || Reqb (Rabs (y2 end_)) (1 / 2 * PI)) _ _ N4) as [A4 B4].
  pose proof (ends_of td _ _ _ _ A1 B1 A2 B2) as T. pose proof (ends_of pd _ _ _ _ A3 B3 A4 B4) as F.
  destruct (if td then _ else _) as [t1 t2]. destruct (if pd then _ else _) as [f1 f2]. cbn [x2 y2]. auto.
Qed.
Lemma arc_torus_settled start end_ after before td pd : Rabs (x2 start) <> PI / 2 -> Rabs (x2 end_) <> PI / 2 -> Rabs (y2 start) <> PI / 2 -> Rabs (y2 end_) <> PI / 2 ->
  let '(s, e) := arc3d_to_toroidal_coordinates_verification start end_ false false false false after before td pd in
  s = start /\ (td = false -> pd = false -> e = end_).
Proof.
  intros N1 N2 N3 N4. unfold arc3d_to_toroidal_coordinates_verification, toroidal_repair_start_end_angle_periodicity.
  assert (Q : forall a, Rabs a <> PI / 2 -> Reqb (Rabs a) (1 / 2 * PI) = false).
  { intros a N. unfold Reqb. destruct (Req_EM_T _ _) as [E|_]; [|reflexivity]. exfalso. apply N. rewrite E. field. }
  rewrite (Q _ N1), (Q _ N2), (Q _ N3), (Q _ N4). cbn [orb x2 y2]. unfold repair_arc3d_angle_continuity.
  destruct start, end_, td, pd; cbn; split; try reflexivity; intros; try discriminate; reflexivity.
Qed.
Lemma arc_sphere_ok start end_ after before d :
  neighbour (x2 start) (x2 after) -> neighbour (x2 end_) (x2 before) ->
  let '(s, e) := arc3d_to_spherical_coordinates_verification start end_ after before d in
  y2 s = y2 start /\ y2 e = y2 end_ /\
  angle_ends (d && isclose (y2 start) (y2 end_) (/ 10 ^ 4)) (x2 start) (x2 end_) (x2 s) (x2 e).
Proof.
  intros N1 N2. unfold arc3d_to_spherical_coordinates_verification, spherical_repair_start_end_angle_periodicity. cbn [x2 y2].
  destruct (repaired (Reqb (Rabs (x2 start)) PI || Reqb (Rabs (x2 start)) (1 / 2 * PI)) _ _ N1) as [A1 B1].
  destruct (repaired (Reqb (Rabs (x2 end_)) PI || Reqb (Rabs (x2 end_)) (1 / 2 * PI)) _ _ N2) as [A2 B2].
  pose proof (ends_of (d && isclose (y2 start) (y2 end_) (/ 10 ^ 4)) _ _ _ _ A1 B1 A2 B2) as T.
  destruct (if d && _ then _ else _) as [t1 t2]. cbn [x2 y2]. auto.
Qed.
(** the side of the reference, at the cut *)
Lemma arc_sphere_side start end_ after before : neighbour (x2 start) (x2 after) -> Rabs (x2 start) = PI ->
  let '(s, e) := arc3d_to_spherical_coordinates_verification start end_ after before false in Rabs (x2 s - x2 after) < PI / 2.
Proof.
  intros (P & Q & C) E. unfold arc3d_to_spherical_coordinates_verification, spherical_repair_start_end_angle_periodicity. cbn [andb x2 y2].
  assert (Reqb (Rabs (x2 start)) PI = true) as -> by (unfold Reqb; destruct (Req_EM_T _ _); [reflexivity|contradiction]). cbn [orb].
  destruct (repair_ok _ _ P Q C) as (_ & _ & K). apply K. rewrite E, inv10_3. lra.
Qed.
Lemma arc_torus_side start end_ u2 u3 u4 after before td pd : neighbour (x2 start) (x2 after) -> Rabs (x2 start) = PI ->
  let '(s, e) := arc3d_to_toroidal_coordinates_verification start end_ true u2 u3 u4 after before td pd in Rabs (x2 s - x2 after) < PI / 2.
Proof.
  intros (P & Q & C) E. unfold arc3d_to_toroidal_coordinates_verification, toroidal_repair_start_end_angle_periodicity, repair_arc3d_angle_continuity. cbn [orb x2 y2].
  destruct (repair_ok _ _ P Q C) as (_ & _ & K). rewrite E, inv10_3 in K.
  destruct td, pd; cbn [x2 y2]; apply K; lra.
Qed.
