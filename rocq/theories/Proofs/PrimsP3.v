From Coq Require Import Reals Lra Lia List Bool ZArith Psatz.
From Verif.Model Require Import Base Mesh RBase Vec Frame BBox Geometry Prims.
From Verif.Spec Require Import VecSpec FrameSpec BBoxSpec PrimsSpec.
From Verif.Proofs Require Import VecP LineP FrameP FrameP2 BBoxP PrimsP PrimsP2.
Import ListNotations.
Open Scope R_scope.

Lemma slab_cover n lo f x : 0 < f -> (0 < n)%nat -> lo <= x <= lo + INR n * f -> exists i, (i < n)%nat /\ lo + INR i * f <= x <= lo + (INR i + 1) * f.
Proof.
  intros F N (L & U). induction n as [|n IH]; [lia|]. rewrite S_INR in U.
  destruct (Rle_lt_dec (lo + INR n * f) x) as [G|G].
  - exists n. split; [lia|]. split; lra.
  - destruct n as [|n]; [cbn [INR] in G; lra|]. destruct IH as (i & I1 & I2); [lia|lra|]. exists i. split; [lia|exact I2].
Qed.
Lemma slab_unique lo f x i j : 0 < f -> lo + INR i * f < x < lo + (INR i + 1) * f -> lo + INR j * f < x < lo + (INR j + 1) * f -> i = j.
Proof.
  intros F (A & B) (C & D). destruct (Nat.lt_trichotomy i j) as [H|[H|H]]; auto; exfalso.
  - apply (le_INR (S i) j) in H. rewrite S_INR in H. nra.
  - apply (le_INR (S j) i) in H. rewrite S_INR in H. nra.
Qed.
Lemma in_slab n i f : 0 < f -> (i < n)%nat -> 0 <= INR i * f /\ (INR i + 1) * f <= INR n * f.
Proof. intros F H. split; [apply Rmult_le_pos; [apply pos_INR|lra]|]. apply Rmult_le_compat_r; [lra|]. rewrite <- S_INR. apply le_INR. lia. Qed.
Definition cell (b : block) a c d (nx ny nz i j k : nat) : block :=
  let fx := a / INR nx in let fy := c / INR ny in let fz := d / INR nz in
  let o := org3 (bframe b) in
  Block (F3 (V3 (x3 o - a / 2 + fx / 2 + INR i * fx) (y3 o - c / 2 + fy / 2 + INR j * fy) (z3 o - d / 2 + fz / 2 + INR k * fz)) (B3 (V3 fx 0 0) (V3 0 fy 0) (V3 0 0 fz))).
Definition cells (b : block) a c d (nx ny nz : nat) : list block :=
  flat_map (fun k => flat_map (fun j => map (fun i => cell b a c d nx ny nz i j k) (seq 0 nx)) (seq 0 ny)) (seq 0 nz).
Lemma cells_in b a c d nx ny nz s : In s (cells b a c d nx ny nz) <-> exists i j k, (i < nx)%nat /\ (j < ny)%nat /\ (k < nz)%nat /\ s = cell b a c d nx ny nz i j k.
Proof.
  unfold cells. rewrite in_flat_map. split.
  - intros (k & K & H). apply in_flat_map in H as (j & J & H). apply in_map_iff in H as (i & E & I0). apply in_seq in I0, J, K. exists i, j, k. repeat split; auto; lia.
  - intros (i & j & k & I0 & J & K & ->). exists k. split; [apply in_seq; lia|]. apply in_flat_map. exists j. split; [apply in_seq; lia|]. apply in_map_iff. exists i. split; [auto|apply in_seq; lia].
Qed.
Lemma length_flat_const {A B} (f : A -> list B) n l : (forall x, In x l -> length (f x) = n) -> length (flat_map f l) = (length l * n)%nat.
Proof. induction l as [|x l IH]; intros H; [reflexivity|]. cbn [flat_map length]. rewrite app_length, (H x (or_introl eq_refl)), IH by (intros; apply H; now right). lia. Qed.
Lemma cells_length b a c d nx ny nz : length (cells b a c d nx ny nz) = (nx * ny * nz)%nat.
Proof.
  unfold cells. rewrite (length_flat_const _ (ny * nx)), seq_length; [lia|]. intros k _. rewrite (length_flat_const _ nx), seq_length; [lia|].
  intros j _. rewrite map_length, seq_length. reflexivity.
Qed.
Lemma mapM_new l : (forall f, In f l -> proper f) -> mapM (fun f => new_block f) l = Ok (map Block l).
Proof. induction l as [|f l IH]; intros H; [reflexivity|]. cbn [mapM map]. rewrite (new_block_ok f) by (apply H; now left). cbn [bind]. rewrite IH by (intros; apply H; now right). reflexivity. Qed.
Lemma mapM_map {A B C} (f : B -> res C) (g : A -> B) l : mapM f (map g l) = mapM (fun x => f (g x)) l.
Proof. induction l as [|x l IH]; [reflexivity|]. cbn [mapM map]. rewrite IH. reflexivity. Qed.
Lemma map_flat_map {A B C} (g : B -> C) (f : A -> list B) l : map g (flat_map f l) = flat_map (fun x => map g (f x)) l.
Proof. induction l as [|x l IH]; [reflexivity|]. cbn [flat_map]. rewrite map_app, IH. reflexivity. Qed.
Lemma flat_map_ext_in {A B} (f g : A -> list B) l : (forall x, f x = g x) -> flat_map f l = flat_map g l.
Proof. intros H. induction l as [|x l IH]; [reflexivity|]. cbn [flat_map]. rewrite H, IH. reflexivity. Qed.
Lemma subdivide_cells b a c d nx ny nz : fb3 (bframe b) = B3 (V3 a 0 0) (V3 0 c 0) (V3 0 0 d) -> 0 < a -> 0 < c -> 0 < d -> (0 < nx)%nat -> (0 < ny)%nat -> (0 < nz)%nat ->
  subdivide_block b nx ny nz = Ok (cells b a c d nx ny nz).
Proof.
  intros E A C D NX NY NZ. unfold subdivide_block.
  replace (Nat.eqb nx 0) with false by (symmetry; apply Nat.eqb_neq; lia). replace (Nat.eqb ny 0) with false by (symmetry; apply Nat.eqb_neq; lia).
  replace (Nat.eqb nz 0) with false by (symmetry; apply Nat.eqb_neq; lia). cbn [orb]. unfold norms. rewrite E. cbn [bu bv bw].
  rewrite (norm3_axis a 0 0 a), (norm3_axis 0 c 0 c), (norm3_axis 0 0 d d) by (try ring; lra). cbn zeta.
  assert (PX : 0 < INR nx) by (apply lt_0_INR; lia). assert (PY : 0 < INR ny) by (apply lt_0_INR; lia). assert (PZ : 0 < INR nz) by (apply lt_0_INR; lia).
  assert (FX : 0 < a / INR nx) by (apply Rdiv_lt_0_compat; auto). assert (FY : 0 < c / INR ny) by (apply Rdiv_lt_0_compat; auto). assert (FZ : 0 < d / INR nz) by (apply Rdiv_lt_0_compat; auto).
  rewrite <- (mapM_map (fun f => new_block f) (fun o => F3 o (B3 (V3 (a / INR nx) 0 0) (V3 0 (c / INR ny) 0) (V3 0 0 (d / INR nz))))).
  rewrite mapM_new.
  2:{ intros f H. apply in_map_iff in H as (o & <- & _). unfold proper, O3D. cbn [fb3 bu bv bw]. repeat split; intros K; injection K; intros; lra. }
  f_equal. rewrite !map_flat_map. unfold cells. apply flat_map_ext_in. intros k. rewrite !map_flat_map. apply flat_map_ext_in. intros j. rewrite !map_map. apply map_ext. intros i.
  unfold cell, translation3, add3, neg3. cbn zeta. cbn [x3 y3 z3]. apply (f_equal (fun o => Block (F3 o (B3 (V3 (a / INR nx) 0 0) (V3 0 (c / INR ny) 0) (V3 0 0 (d / INR nz)))))). f_equal; ring.
Qed.
Lemma cell_in b a c d nx ny nz i j k p : fb3 (bframe b) = B3 (V3 a 0 0) (V3 0 c 0) (V3 0 0 d) -> 0 < a -> 0 < c -> 0 < d -> (0 < nx)%nat -> (0 < ny)%nat -> (0 < nz)%nat ->
  let o := org3 (bframe b) in let fx := a / INR nx in let fy := c / INR ny in let fz := d / INR nz in
  in_block (cell b a c d nx ny nz i j k) p <->
  (x3 o - a / 2) + INR i * fx <= x3 p <= (x3 o - a / 2) + (INR i + 1) * fx /\ (y3 o - c / 2) + INR j * fy <= y3 p <= (y3 o - c / 2) + (INR j + 1) * fy /\
  (z3 o - d / 2) + INR k * fz <= z3 p <= (z3 o - d / 2) + (INR k + 1) * fz.
Proof.
  intros E A C D NX NY NZ o fx fy fz.
  assert (FX : 0 < fx) by (apply Rdiv_lt_0_compat; [auto|apply lt_0_INR; lia]). assert (FY : 0 < fy) by (apply Rdiv_lt_0_compat; [auto|apply lt_0_INR; lia]).
  assert (FZ : 0 < fz) by (apply Rdiv_lt_0_compat; [auto|apply lt_0_INR; lia]).
  unfold cell. fold fx fy fz o. rewrite diag_in by lra. rewrite (Rabs_right fx), (Rabs_right fy), (Rabs_right fz) by lra. cbn [x3 y3 z3]. split; lra.
Qed.
Lemma strict_1 a x o t : 0 < a -> t = o + a * x -> Rabs x < 1 / 2 -> o - a / 2 < t < o + a / 2.
Proof. intros A -> H. apply Rabs_def2 in H. split; nra. Qed.
Lemma cell_strict b a c d nx ny nz i j k p : fb3 (bframe b) = B3 (V3 a 0 0) (V3 0 c 0) (V3 0 0 d) -> 0 < a -> 0 < c -> 0 < d -> (0 < nx)%nat -> (0 < ny)%nat -> (0 < nz)%nat ->
  let o := org3 (bframe b) in let fx := a / INR nx in let fy := c / INR ny in let fz := d / INR nz in
  strictly_in_block (cell b a c d nx ny nz i j k) p ->
  (x3 o - a / 2) + INR i * fx < x3 p < (x3 o - a / 2) + (INR i + 1) * fx /\ (y3 o - c / 2) + INR j * fy < y3 p < (y3 o - c / 2) + (INR j + 1) * fy /\
  (z3 o - d / 2) + INR k * fz < z3 p < (z3 o - d / 2) + (INR k + 1) * fz.
Proof.
  intros E A C D NX NY NZ o fx fy fz (x & y & z & X & Y & Z & EP).
  assert (FX : 0 < fx) by (apply Rdiv_lt_0_compat; [auto|apply lt_0_INR; lia]). assert (FY : 0 < fy) by (apply Rdiv_lt_0_compat; [auto|apply lt_0_INR; lia]).
  assert (FZ : 0 < fz) by (apply Rdiv_lt_0_compat; [auto|apply lt_0_INR; lia]).
  unfold cell in EP. fold fx fy fz o in EP. cbn [bframe] in EP. rewrite diag_point in EP. cbn [x3 y3 z3] in EP. subst p. cbn [x3 y3 z3].
  split; [|split].
  - pose proof (strict_1 fx x (x3 o - a / 2 + fx / 2 + INR i * fx) _ FX eq_refl X). lra.
  - pose proof (strict_1 fy y (y3 o - c / 2 + fy / 2 + INR j * fy) _ FY eq_refl Y). lra.
  - pose proof (strict_1 fz z (z3 o - d / 2 + fz / 2 + INR k * fz) _ FZ eq_refl Z). lra.
Qed.
Lemma total_const l v : (forall b, In b l -> block_volume b = v) -> total_volume l = INR (length l) * v.
Proof.
  induction l as [|b l IH]; intros H; [cbn; ring|]. unfold total_volume in *. cbn [fold_right]. rewrite IH by (intros; apply H; now right). rewrite (H b) by now left. cbn [length]. rewrite S_INR. ring.
Qed.
Lemma subdivide_ok b nx ny nz : upright_block b -> (0 < nx)%nat -> (0 < ny)%nat -> (0 < nz)%nat ->
  exists l, subdivide_block b nx ny nz = Ok l /\ length l = (nx * ny * nz)%nat /\
    (forall p, in_block b p <-> exists s, In s l /\ in_block s p) /\
    (forall s t p, In s l -> In t l -> strictly_in_block s p -> strictly_in_block t p -> s = t) /\
    (forall s, In s l -> block_volume s = block_volume b / INR (nx * ny * nz)) /\ total_volume l = block_volume b.
Proof.
  intros (a & c & d & E & A & C & D) NX NY NZ. exists (cells b a c d nx ny nz).
  assert (PX : 0 < INR nx) by (apply lt_0_INR; lia). assert (PY : 0 < INR ny) by (apply lt_0_INR; lia). assert (PZ : 0 < INR nz) by (apply lt_0_INR; lia).
  assert (FX : 0 < a / INR nx) by (apply Rdiv_lt_0_compat; auto). assert (FY : 0 < c / INR ny) by (apply Rdiv_lt_0_compat; auto). assert (FZ : 0 < d / INR nz) by (apply Rdiv_lt_0_compat; auto).
  assert (EX : INR nx * (a / INR nx) = a) by (field; lra). assert (EY : INR ny * (c / INR ny) = c) by (field; lra). assert (EZ : INR nz * (d / INR nz) = d) by (field; lra).
  assert (V : forall s, In s (cells b a c d nx ny nz) -> block_volume s = block_volume b / INR (nx * ny * nz)).
  { intros s H. apply cells_in in H as (i & j & k & _ & _ & _ & ->). unfold block_volume, norms, cell. cbn [bframe fb3 bu bv bw]. rewrite E. cbn [bu bv bw].
    rewrite (norm3_axis a 0 0 a), (norm3_axis 0 c 0 c), (norm3_axis 0 0 d d) by (try ring; lra).
    rewrite (norm3_axis (a / INR nx) 0 0 (a / INR nx)), (norm3_axis 0 (c / INR ny) 0 (c / INR ny)), (norm3_axis 0 0 (d / INR nz) (d / INR nz)) by (try ring; lra).
    rewrite !mult_INR. field. lra. }
  split; [apply subdivide_cells; auto|]. split; [apply cells_length|]. split; [|split; [|split; [exact V|]]].
  - intros p. assert (HB : in_block b p <-> x3 (org3 (bframe b)) - a / 2 <= x3 p <= x3 (org3 (bframe b)) + a / 2 /\ y3 (org3 (bframe b)) - c / 2 <= y3 p <= y3 (org3 (bframe b)) + c / 2 /\ z3 (org3 (bframe b)) - d / 2 <= z3 p <= z3 (org3 (bframe b)) + d / 2).
    { destruct b as [[o fb]]. cbn [bframe fb3 org3] in *. subst fb. rewrite diag_in by lra. rewrite (Rabs_right a), (Rabs_right c), (Rabs_right d) by lra. split; lra. }
    rewrite HB. split.
    + intros (X & Y & Z).
      destruct (slab_cover nx (x3 (org3 (bframe b)) - a / 2) (a / INR nx) (x3 p) FX NX) as (i & I1 & I2); [lra|].
      destruct (slab_cover ny (y3 (org3 (bframe b)) - c / 2) (c / INR ny) (y3 p) FY NY) as (j & J1 & J2); [lra|].
      destruct (slab_cover nz (z3 (org3 (bframe b)) - d / 2) (d / INR nz) (z3 p) FZ NZ) as (k & K1 & K2); [lra|].
      exists (cell b a c d nx ny nz i j k). split; [apply cells_in; exists i, j, k; auto|]. apply cell_in; auto.
    + intros (s & H & Hp). apply cells_in in H as (i & j & k & I0 & J & K & ->). apply cell_in in Hp as (X & Y & Z); auto.
      pose proof (in_slab nx i _ FX I0). pose proof (in_slab ny j _ FY J). pose proof (in_slab nz k _ FZ K). lra.
  - intros s t p HS HT PS PT. apply cells_in in HS as (i & j & k & _ & _ & _ & ->). apply cells_in in HT as (i' & j' & k' & _ & _ & _ & ->).
    apply cell_strict in PS as (X & Y & Z); auto. apply cell_strict in PT as (X' & Y' & Z'); auto.
    rewrite (slab_unique _ _ _ i i' FX X X'), (slab_unique _ _ _ j j' FY Y Y'), (slab_unique _ _ _ k k' FZ Z Z'). reflexivity.
  - rewrite (total_const _ _ V), cells_length. rewrite !mult_INR. field. lra.
Qed.
Lemma subdivide_zero b nx ny nz : (nx = 0 \/ ny = 0 \/ nz = 0)%nat -> subdivide_block b nx ny nz = Err ZeroDivisionError.
Proof. intros [-> | [-> | ->]]; unfold subdivide_block; cbn [Nat.eqb]; rewrite ?orb_true_r; reflexivity. Qed.
(** the axes of the block are forgotten *)
Lemma subdivide_turned : exists b l p, new_block (bframe b) = Ok b /\ orthonormal (fb3 (bframe b)) /\ subdivide_block b 2 2 2 = Ok l /\
  in_block b p /\ (forall s, In s l -> ~ in_block s p).
Proof.
  set (b := Block (F3 O3D (B3 (V3 (3 / 5) (4 / 5) 0) (V3 (- (4 / 5)) (3 / 5) 0) (V3 0 0 1)))).
  set (b' := Block (F3 O3D (B3 (V3 1 0 0) (V3 0 1 0) (V3 0 0 1)))).
  assert (SB : subdivide_block b 2 2 2 = subdivide_block b' 2 2 2).
  { unfold subdivide_block, norms, b, b'. cbn [bframe fb3 bu bv bw org3].
    rewrite (norm3_axis (3 / 5) (4 / 5) 0 1), (norm3_axis (- (4 / 5)) (3 / 5) 0 1), (norm3_axis 1 0 0 1), (norm3_axis 0 1 0 1) by lra. reflexivity. }
  destruct (subdivide_ok b' 2 2 2) as (l & S1 & _ & S2 & _); try lia.
  { exists 1, 1, 1. split; [reflexivity|lra]. }
  exists b, l, (V3 (7 / 10) (1 / 10) 0). split; [|split; [|split; [rewrite SB; exact S1|split]]].
  - unfold b. cbn [bframe]. apply new_block_ok. unfold proper, O3D. cbn [fb3 bu bv bw]. repeat split; intros K; injection K; intros; lra.
  - unfold orthonormal, b, dot3. cbn [bframe fb3 bu bv bw x3 y3 z3]. repeat split; field.
  - exists (1 / 2), (- (1 / 2)), 0. unfold within. repeat split; try lra. unfold b, frame_point, basis_vector, add3, mul3, O3D. cbn [bframe fb3 bu bv bw org3 x3 y3 z3]. f_equal; field.
  - intros s Hs Hp. assert (H : in_block b' (V3 (7 / 10) (1 / 10) 0)) by (apply S2; eauto).
    unfold b' in H. apply diag_in in H as (H & _); [|lra..]. cbn [x3 O3D] in H. unfold O3D in H. cbn [x3] in H. rewrite Rabs_R1 in H. lra.
Qed.
