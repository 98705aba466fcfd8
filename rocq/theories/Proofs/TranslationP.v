From Verif.Model Require Import Base FloodFill VoxelMatrix.
From Verif.Spec Require Import GridSpec VoxelSpec.
From Verif.Proofs Require Import FloodFillP VoxelP VoxelOpsP VoxelDisplayP.
From Coq Require Import Lia.
Open Scope Z_scope.

Lemma dedup3_In c l : In c (dedup3 l) <-> In c l.
Proof.
  induction l as [|d l IH]; [reflexivity|]. cbn [dedup3 fold_right]. fold (dedup3 l).
  destruct (mem3 d (dedup3 l)) eqn:E; cbn [In]; rewrite <- IH; [|reflexivity].
  apply mem3_spec in E. split; [tauto|]. intros [<-|H]; assumption.
Qed.
Lemma dedup3_NoDup l : NoDup (dedup3 l).
Proof.
  induction l as [|d l IH]; [constructor|]. cbn [dedup3 fold_right]. fold (dedup3 l).
  destruct (mem3 d (dedup3 l)) eqn:E; [exact IH|]. constructor; [|exact IH]. intros H. apply mem3_spec in H. congruence.
Qed.
Lemma dedup3_length l : (length (dedup3 l) <= length l)%nat.
Proof.
  induction l as [|d l IH]; [reflexivity|]. cbn [dedup3 fold_right]. fold (dedup3 l).
  destruct (mem3 d (dedup3 l)); cbn [length]; lia.
Qed.
Lemma grid_center_even h i : grid_center (2 * h) i = (2 * i + 1) * h.
Proof. unfold grid_center. replace ((2 * i + 1) * (2 * h)) with (2 * ((2 * i + 1) * h)) by ring. apply rint_even. Qed.

Definition cell_of (v t : Z) : Z := grid_center v (t / v).
Lemma cell_of_in h t : 0 < h -> cell_of (2 * h) t - h <= t < cell_of (2 * h) t + h.
Proof.
  intros H. unfold cell_of. rewrite grid_center_even. pose proof (Z.div_mod t (2 * h) ltac:(lia)).
  pose proof (Z.mod_pos_bound t (2 * h) ltac:(lia)). nia.
Qed.
Lemma cell_of_grid h t : 0 < h -> grid_coord (2 * h) t -> cell_of (2 * h) t = t.
Proof.
  intros H [k Hk]. unfold cell_of. rewrite grid_center_even.
  replace t with (h + k * (2 * h)) by nia. rewrite Z.div_add, Z.div_small by lia. ring.
Qed.
Lemma cell_of_on_grid h t : 0 < h -> grid_coord (2 * h) (cell_of (2 * h) t).
Proof. intros H. unfold cell_of. rewrite grid_center_even. exists (t / (2 * h)). ring. Qed.

Definition cell_of3 (v : Z) (p : Z * Z * Z) : Z * Z * Z :=
  let '(x, y, z) := p in (cell_of v x, cell_of v y, cell_of v z).
Definition shift3 (d p : Z * Z * Z) : Z * Z * Z :=
  let '(dx, dy, dz) := d in let '(x, y, z) := p in (x + dx, y + dy, z + dz).

Lemma translation_In a d p : In p (pcs (translation a d)) <-> exists q, In q (pcs a) /\ p = cell_of3 (pvs a) (shift3 d q).
Proof.
  destruct d as [[dx dy] dz]. cbn [translation pcs]. unfold voxels_intersecting.
  rewrite dedup3_In, in_map_iff. split.
  - intros (q & <- & H). apply dedup3_In, in_map_iff in H. destruct H as (r & <- & H). apply in_map_iff in H. destruct H as (s & <- & H).
    exists s. split; [exact H|]. destruct s as [[x y] z]. reflexivity.
  - intros ([[x y] z] & H & ->). exists ((x + dx) / pvs a, (y + dy) / pvs a, (z + dz) / pvs a). split; [reflexivity|].
    apply dedup3_In, in_map_iff. exists (x + dx, y + dy, z + dz). split; [reflexivity|].
    apply in_map_iff. exists (x, y, z). split; [reflexivity|exact H].
Qed.
Lemma translation_NoDup a d : NoDup (pcs (translation a d)).
Proof. destruct d as [[dx dy] dz]. apply dedup3_NoDup. Qed.
Lemma translation_length a d : (length (pcs (translation a d)) <= length (pcs a))%nat.
Proof.
  destruct d as [[dx dy] dz]. cbn [translation pcs]. unfold voxels_intersecting.
  eapply Nat.le_trans; [apply dedup3_length|]. rewrite map_length.
  eapply Nat.le_trans; [apply dedup3_length|]. rewrite !map_length. reflexivity.
Qed.
Lemma grid_even v x : grid_coord v x -> exists h, v = 2 * h.
Proof. intros [k Hk]. exists (x - k * v). lia. Qed.

Lemma translation_any a d q : 0 < pvs a -> (exists h, pvs a = 2 * h) -> In q (pcs a) ->
  exists r, In r (pcs (translation a d)) /\ on_grid3 (pvs a) r /\
    (forall f, f = (fun c : Z * Z * Z => fst (fst c)) \/ f = (fun c : Z * Z * Z => snd (fst c)) \/ f = (fun c : Z * Z * Z => snd c) ->
      2 * f r - pvs a <= 2 * (f q + f d) < 2 * f r + pvs a).
Proof.
  intros Hv [h Hh] Hq. exists (cell_of3 (pvs a) (shift3 d q)). split; [apply translation_In; exists q; split; [exact Hq|reflexivity]|].
  destruct d as [[dx dy] dz], q as [[x y] z]. rewrite Hh in *. cbn [cell_of3 shift3]. split.
  - unfold on_grid3. cbn [fst snd]. repeat split; apply cell_of_on_grid; lia.
  - intros f Hf. pose proof (cell_of_in h (x + dx) ltac:(lia)). pose proof (cell_of_in h (y + dy) ltac:(lia)). pose proof (cell_of_in h (z + dz) ltac:(lia)).
    destruct Hf as [-> | [-> | ->]]; cbn [fst snd]; lia.
Qed.
Lemma translation_grid a i j k : 0 < pvs a -> (forall p, In p (pcs a) -> on_grid3 (pvs a) p) ->
  forall x y z, In (x, y, z) (pcs (translation a (i * pvs a, j * pvs a, k * pvs a))) <->
     In (x - i * pvs a, y - j * pvs a, z - k * pvs a) (pcs a).
Proof.
  intros Hv Hg x y z. rewrite translation_In.
  assert (Hc : forall q, In q (pcs a) -> cell_of3 (pvs a) (shift3 (i * pvs a, j * pvs a, k * pvs a) q) = shift3 (i * pvs a, j * pvs a, k * pvs a) q).
  { intros [[x' y'] z'] Hq. destruct (Hg _ Hq) as (G1 & G2 & G3). cbn [fst snd] in *. destruct (grid_even _ _ G1) as [h Hh].
    cbn [shift3 cell_of3]. rewrite Hh in *. rewrite !cell_of_grid; try lia; try (apply grid_shift; assumption). reflexivity. }
  split.
  - intros ([[x' y'] z'] & Hq & E). rewrite Hc in E by exact Hq. cbn [shift3] in E. injection E as -> -> ->.
    replace (x' + i * pvs a - i * pvs a) with x' by ring. replace (y' + j * pvs a - j * pvs a) with y' by ring.
    replace (z' + k * pvs a - k * pvs a) with z' by ring. exact Hq.
  - intros Hq. eexists. split; [exact Hq|]. rewrite Hc by exact Hq. cbn [shift3]. f_equal; [f_equal|]; ring.
Qed.
Lemma translation_grid_length a i j k : 0 < pvs a -> NoDup (pcs a) -> (forall p, In p (pcs a) -> on_grid3 (pvs a) p) ->
  length (pcs (translation a (i * pvs a, j * pvs a, k * pvs a))) = length (pcs a).
Proof.
  intros Hv Hn Hg. apply Nat.le_antisymm; [apply translation_length|].
  rewrite <- (map_length (shift3 (i * pvs a, j * pvs a, k * pvs a)) (pcs a)).
  apply NoDup_incl_length.
  - apply NoDup_map_inj; [|exact Hn]. intros [[x y] z] [[x' y'] z'] _ _ E. cbn [shift3] in E. injection E as E1 E2 E3. f_equal; [f_equal|]; lia.
  - intros p Hp. apply in_map_iff in Hp. destruct Hp as ([[x y] z] & <- & Hp). cbn [shift3]. apply translation_grid; [exact Hv|exact Hg|].
    replace (x + i * pvs a - i * pvs a) with x by ring. replace (y + j * pvs a - j * pvs a) with y by ring.
    replace (z + k * pvs a - k * pvs a) with z by ring. exact Hp.
Qed.
