From Verif.Model Require Import Base FloodFill VoxelMatrix.
From Verif.Spec Require Import GridSpec VoxelSpec.
From Verif.Proofs Require Import FloodFillP OuterP.
From Coq Require Import Lia.
Open Scope Z_scope.

(** * Rounding *)
Lemma rint_bounds a b : 0 < b -> 2 * a - b <= 2 * (b * rint_div a b) <= 2 * a + b.
Proof.
  intros Hb. unfold rint_div. pose proof (Z.div_mod a b ltac:(lia)) as E. pose proof (Z.mod_pos_bound a b Hb) as M.
  set (q := a / b) in *. set (r := a mod b) in *.
  destruct (Z.ltb_spec (2 * r) b); [nia|]. destruct (Z.ltb_spec b (2 * r)); [nia|].
  destruct (Z.even q); nia.
Qed.
Lemma rint_exact k b : 0 < b -> rint_div (k * b) b = k.
Proof. intros Hb. pose proof (rint_bounds (k * b) b Hb). assert (2 * b * (rint_div (k * b) b - k) <= b /\ - b <= 2 * b * (rint_div (k * b) b - k)) by nia. nia. Qed.
Lemma round9_exact k v : 0 < v -> round9_int (k * v) v = k.
Proof.
  intros Hv. unfold round9_int. replace (one * (k * v)) with (one * k * v) by ring.
  rewrite rint_exact by exact Hv. rewrite Z.mul_comm. apply Z.quot_mul. unfold one; lia.
Qed.
Lemma round9_lower a v T : 0 < v -> 0 <= T -> T * v <= a -> T <= round9_int a v.
Proof.
  intros Hv HT Ha. unfold round9_int.
  pose proof (rint_bounds (one * a) v Hv) as B. set (r := rint_div (one * a) v) in *.
  assert (Ho : 0 < one) by (unfold one; lia).
  assert (Hr : one * T <= r).
  { assert (2 * (one * (T * v)) - v <= 2 * (v * r)) by nia. assert (v * (2 * (one * T) - 1) <= v * (2 * r)) by nia.
    assert (2 * (one * T) - 1 <= 2 * r) by nia. lia. }
  rewrite Z.quot_div_nonneg by nia. apply Z.div_le_lower_bound; lia.
Qed.
Lemma round6_err x : x - 500 <= round6 x <= x + 500.
Proof. unfold round6. pose proof (rint_bounds x 1000 ltac:(lia)). lia. Qed.
Lemma round6_exact x : (1000 | x) -> round6 x = x.
Proof. intros [k ->]. unfold round6. rewrite rint_exact by lia. ring. Qed.

(** The size guard under which the shape computed along an axis is large enough. *)
Definition fits (o n v : Z) : Prop := o + n * v <= axis_max o n v.
Lemma fits_small o n v : v <= one - 500 -> fits o n v.
Proof. intros H. unfold fits, axis_max. pose proof (round6_err (o + (n - 1) * v)). lia. Qed.
Lemma fits_micro o n v : v <= one -> (1000 | o) -> (1000 | v) -> fits o n v.
Proof.
  intros H [k Ho] [l Hv]. unfold fits, axis_max. rewrite round6_exact; [nia|].
  exists (k + (n - 1) * l). rewrite Ho, Hv. ring.
Qed.

Lemma axis_start_ok o1 o2 k v : 0 < v -> o1 - Z.min o1 o2 = k * v -> axis_start o1 o2 v = k.
Proof. intros Hv Hk. unfold axis_start, axis_gmin. rewrite Hk. apply round9_exact; exact Hv. Qed.
Lemma axis_shape_ok o1 n1 o2 n2 k v : 0 < v -> 0 <= n1 -> 0 <= k -> o1 - Z.min o1 o2 = k * v -> fits o1 n1 v ->
  k + n1 <= axis_shape o1 n1 o2 n2 v.
Proof.
  intros Hv Hn Hk E F. unfold axis_shape. apply round9_lower; [exact Hv|lia|]. unfold fits in F. unfold axis_gmin.
  assert ((k + n1) * v = k * v + n1 * v) by ring. lia.
Qed.
Lemma axis_shape_comm o1 n1 o2 n2 v : axis_shape o1 n1 o2 n2 v = axis_shape o2 n2 o1 n1 v.
Proof. unfold axis_shape, axis_gmin. rewrite Z.max_comm, (Z.min_comm o1 o2). reflexivity. Qed.

(** Two grid coordinates differ from their minimum by multiples of v. *)
Lemma grid_diff v x y : 0 < v -> grid_coord v x -> grid_coord v y -> exists k, 0 <= k /\ x - Z.min x y = k * v.
Proof.
  intros Hv [k Hk] [l Hl]. exists (k - Z.min k l).
  destruct (Z.le_ge_cases k l) as [H|H].
  - rewrite (Z.min_l k l) by exact H. assert (x <= y) by nia. split; nia.
  - rewrite (Z.min_r k l) by exact H. assert (y <= x) by nia. split; nia.
Qed.
Lemma same_diff v x : exists k, 0 <= k /\ x - Z.min x x = k * v.
Proof. exists 0. lia. Qed.

(** * Lists *)
Lemma fold_min_spec l : forall d, (fold_left Z.min l d = d \/ In (fold_left Z.min l d) l) /\
   fold_left Z.min l d <= d /\ forall x, In x l -> fold_left Z.min l d <= x.
Proof.
  induction l as [|a l IH]; intros d; cbn [fold_left In].
  - split; [left; reflexivity|]. split; [lia|]. intros x [].
  - destruct (IH (Z.min d a)) as (H1 & H2 & H3). split; [|split].
    + destruct H1 as [->|H1]; [|right; right; exact H1]. destruct (Z.min_spec d a) as [[_ ->]|[_ ->]]; auto.
    + lia.
    + intros x [->|Hx]; [lia|apply H3; exact Hx].
Qed.
Lemma fold_max_spec l : forall d, (fold_left Z.max l d = d \/ In (fold_left Z.max l d) l) /\
   d <= fold_left Z.max l d /\ forall x, In x l -> x <= fold_left Z.max l d.
Proof.
  induction l as [|a l IH]; intros d; cbn [fold_left In].
  - split; [left; reflexivity|]. split; [lia|]. intros x [].
  - destruct (IH (Z.max d a)) as (H1 & H2 & H3). split; [|split].
    + destruct H1 as [->|H1]; [|right; right; exact H1]. destruct (Z.max_spec d a) as [[_ ->]|[_ ->]]; auto.
    + lia.
    + intros x [->|Hx]; [lia|apply H3; exact Hx].
Qed.

(** minimum / maximum of a projection over a non empty list *)
Lemma lmin_map {A} (f : A -> Z) p l : (exists q, In q (p :: l) /\ f q = lmin (f p) (map f l)) /\
  forall q, In q (p :: l) -> lmin (f p) (map f l) <= f q.
Proof.
  unfold lmin. destruct (fold_min_spec (map f l) (f p)) as (H1 & H2 & H3). split.
  - destruct H1 as [->|H1]; [exists p; split; [left|]; reflexivity|].
    apply in_map_iff in H1. destruct H1 as (q & Hq & Hin). exists q. split; [right; exact Hin|exact Hq].
  - intros q [<-|Hq]; [exact H2|]. apply H3. apply in_map. exact Hq.
Qed.
Lemma lmax_map {A} (f : A -> Z) p l : (exists q, In q (p :: l) /\ f q = lmax (f p) (map f l)) /\
  forall q, In q (p :: l) -> f q <= lmax (f p) (map f l).
Proof.
  unfold lmax. destruct (fold_max_spec (map f l) (f p)) as (H1 & H2 & H3). split.
  - destruct H1 as [->|H1]; [exists p; split; [left|]; reflexivity|].
    apply in_map_iff in H1. destruct H1 as (q & Hq & Hin). exists q. split; [right; exact Hin|exact Hq].
  - intros q [<-|Hq]; [exact H2|]. apply H3. apply in_map. exact Hq.
Qed.

(*BEGIN3*)
Lemma in_argwhere3 m c : In c (argwhere3 m) <-> set3 m c.
Proof. unfold argwhere3, set3, cell3. rewrite filter_In, in_cells3. reflexivity. Qed.

Lemma voxel_centers_spec a p : In p (voxel_centers a) <-> center_of3 a p.
Proof.
  unfold voxel_centers, center_of3. rewrite in_map_iff. destruct (vorg a) as [[ox oy] oz]. cbn [fst snd]. split.
  - intros ([[x y] z] & <- & H). exists x, y, z. rewrite <- in_argwhere3. split; [exact H|reflexivity].
  - intros (x & y & z & H & ->). exists (x, y, z). rewrite in_argwhere3. split; [reflexivity|exact H].
Qed.

(** * crop *)
Lemma crop3_cases a :
  (crop3 a = a /\ forall c, ~ set3 (vmat a) c) \/
  (exists mx my mz, vorg (crop3 a) = center3 (vorg a) (vsz a) (mx, my, mz) /\ vsz (crop3 a) = vsz a /\
    tight3 (vmat (crop3 a)) /\ wf3 (vmat (crop3 a)) /\
    forall x y z, set3 (vmat (crop3 a)) (x, y, z) <-> set3 (vmat a) (x + mx, y + my, z + mz)).
Proof.
  unfold crop3. destruct (argwhere3 (vmat a)) as [|[[x y] z] l] eqn:E.
  - left. split; [reflexivity|]. intros c H. apply in_argwhere3 in H. rewrite E in H. destruct H.
  - right.
    assert (HI : forall q, In q ((x, y, z) :: l) <-> set3 (vmat a) q) by (intros q; rewrite <- E; apply in_argwhere3).
    pose proof (lmin_map (fun c : Z * Z * Z => fst (fst c)) (x, y, z) l) as [(qx & Hqx & Eqx) Lx].
    pose proof (lmax_map (fun c : Z * Z * Z => fst (fst c)) (x, y, z) l) as [(Qx & HQx & EQx) Ux].
    pose proof (lmin_map (fun c : Z * Z * Z => snd (fst c)) (x, y, z) l) as [(qy & Hqy & Eqy) Ly].
    pose proof (lmax_map (fun c : Z * Z * Z => snd (fst c)) (x, y, z) l) as [(Qy & HQy & EQy) Uy].
    pose proof (lmin_map (fun c : Z * Z * Z => snd c) (x, y, z) l) as [(qz & Hqz & Eqz) Lz].
    pose proof (lmax_map (fun c : Z * Z * Z => snd c) (x, y, z) l) as [(Qz & HQz & EQz) Uz].
    cbn [fst snd] in *. change (map (fun c : Z * Z * Z => snd c) l) with (map snd l) in *.
    set (mx := lmin x _) in *. set (Mx := lmax x _) in *.
    set (my := lmin y _) in *. set (My := lmax y _) in *.
    set (mz := lmin z _) in *. set (Mz := lmax z _) in *.
    exists mx, my, mz. cbn [vorg vsz vmat].
    split; [reflexivity|]. split; [reflexivity|].
    assert (Hb : forall q, set3 (vmat a) q -> mx <= fst (fst q) <= Mx /\ my <= snd (fst q) <= My /\ mz <= snd q <= Mz).
    { intros q Hq. apply HI in Hq. specialize (Lx q Hq). specialize (Ux q Hq). specialize (Ly q Hq). specialize (Uy q Hq).
      specialize (Lz q Hq). specialize (Uz q Hq). lia. }
    assert (Hs : forall x0 y0 z0,
       set3 {| dimx := Mx + 1 - mx; dimy := My + 1 - my; dimz := Mz + 1 - mz;
               at3 := fun c => let '(x1, y1, z1) := c in at3 (vmat a) (x1 + mx, y1 + my, z1 + mz) |} (x0, y0, z0)
       <-> set3 (vmat a) (x0 + mx, y0 + my, z0 + mz)).
    { intros x0 y0 z0. unfold set3 at 1, cell3, In3. cbn [dimx dimy dimz at3 fst snd]. split.
      - intros [Hr Ha]. split; [|exact Ha].
        apply HI in Hqx, HQx, Hqy, HQy, Hqz, HQz. unfold set3, cell3, In3 in *. cbn [fst snd]. lia.
      - intros H. destruct (Hb _ H) as (B1 & B2 & B3). cbn [fst snd] in *. split; [lia|apply H]. }
    apply HI in Hqx, HQx, Hqy, HQy, Hqz, HQz.
    split; [|split].
    + unfold tight3. cbn [dimx dimy dimz].
      destruct qx as [[x1 y1] z1], Qx as [[x2 y2] z2], qy as [[x3 y3] z3], Qy as [[x4 y4] z4], qz as [[x5 y5] z5], Qz as [[x6 y6] z6].
      cbn [fst snd] in *.
      repeat match goal with |- _ /\ _ => split end.
      * exists (y1 - my), (z1 - mz). apply Hs. replace (y1 - my + my) with y1 by lia. replace (z1 - mz + mz) with z1 by lia. replace (0 + mx) with x1 by lia. exact Hqx.
      * exists (y2 - my), (z2 - mz). apply Hs. replace (y2 - my + my) with y2 by lia. replace (z2 - mz + mz) with z2 by lia. replace (Mx + 1 - mx - 1 + mx) with x2 by lia. exact HQx.
      * exists (x3 - mx), (z3 - mz). apply Hs. replace (x3 - mx + mx) with x3 by lia. replace (z3 - mz + mz) with z3 by lia. replace (0 + my) with y3 by lia. exact Hqy.
      * exists (x4 - mx), (z4 - mz). apply Hs. replace (x4 - mx + mx) with x4 by lia. replace (z4 - mz + mz) with z4 by lia. replace (My + 1 - my - 1 + my) with y4 by lia. exact HQy.
      * exists (x5 - mx), (y5 - my). apply Hs. replace (x5 - mx + mx) with x5 by lia. replace (y5 - my + my) with y5 by lia. replace (0 + mz) with z5 by lia. exact Hqz.
      * exists (x6 - mx), (y6 - my). apply Hs. replace (x6 - mx + mx) with x6 by lia. replace (y6 - my + my) with y6 by lia. replace (Mz + 1 - mz - 1 + mz) with z6 by lia. exact HQz.
    + unfold wf3. cbn [dimx dimy dimz]. destruct (Hb _ Hqx) as (B1 & B2 & B3). lia.
    + exact Hs.
Qed.

Lemma crop3_centers a p : center_of3 (crop3 a) p <-> center_of3 a p.
Proof.
  destruct (crop3_cases a) as [[-> _]|(mx & my & mz & Ho & Hv & _ & _ & Hs)]; [reflexivity|].
  unfold center_of3. rewrite Ho, Hv. destruct (vorg a) as [[ox oy] oz]. unfold center3. cbn [fst snd]. split.
  - intros (x & y & z & H & ->). exists (x + mx), (y + my), (z + mz). split; [apply Hs; exact H|].
    f_equal; [f_equal|]; ring.
  - intros (x & y & z & H & ->). exists (x - mx), (y - my), (z - mz). split.
    + apply Hs. replace (x - mx + mx) with x by lia. replace (y - my + my) with y by lia. replace (z - mz + mz) with z by lia. exact H.
    + f_equal; [f_equal|]; ring.
Qed.

Lemma crop3_tight a p : center_of3 a p -> tight3 (vmat (crop3 a)).
Proof.
  destruct (crop3_cases a) as [[_ H]|(mx & my & mz & _ & _ & H & _)]; [|intros _; exact H].
  intros (x & y & z & G & _). destruct (H _ G).
Qed.

Lemma crop3_wf a : wf3 (vmat a) -> wf3 (vmat (crop3 a)).
Proof. destruct (crop3_cases a) as [[-> _]|(mx & my & mz & _ & _ & _ & H & _)]; [intros H; exact H|intros _; exact H]. Qed.
Lemma crop3_vsz a : vsz (crop3 a) = vsz a.
Proof. destruct (crop3_cases a) as [[-> _]|(mx & my & mz & _ & H & _)]; [reflexivity|exact H]. Qed.

Lemma vox_eqb_spec a b : vox_eqb a b = true <-> vsz a = vsz b /\ vorg a = vorg b /\ same3 (vmat a) (vmat b).
Proof.
  unfold vox_eqb, mat3_eqb, same3. rewrite !andb_true_iff, eqb3_spec, !Z.eqb_eq, forallb_forall.
  split.
  - intros ((Hv & Ho) & (((H1 & H2) & H3) & H4)). repeat (split; [assumption|]).
    intros c Hc. apply Bool.eqb_prop. apply H4. apply in_cells3. exact Hc.
  - intros (Hv & Ho & H1 & H2 & H3 & H4). repeat split; try assumption.
    intros c Hc. apply Bool.eqb_true_iff. apply H4. apply in_cells3. exact Hc.
Qed.

(** Two tight matrices with the same centers and size are the same voxelization. *)
Lemma tight_unique3 a b : 0 < vsz a -> vsz a = vsz b -> tight3 (vmat a) -> tight3 (vmat b) ->
  (forall p, center_of3 a p <-> center_of3 b p) -> vox_eqb a b = true.
Proof.
  intros Hv0 Hv Ta Tb Hc. destruct a as [ma [[ax ay] az] va], b as [mb [[bx by_] bz] vb]. cbn [vmat vorg vsz] in *. subst vb.
  unfold center_of3 in Hc. cbn [vmat vorg vsz fst snd] in Hc.
  assert (FA : forall x y z, set3 ma (x, y, z) -> exists x' y' z', set3 mb (x', y', z') /\ ax + x * va = bx + x' * va /\ ay + y * va = by_ + y' * va /\ az + z * va = bz + z' * va).
  { intros x y z H. destruct (proj1 (Hc (ax + x * va, ay + y * va, az + z * va))) as (x' & y' & z' & G & E).
    - exists x, y, z. split; [exact H|reflexivity].
    - injection E as E1 E2 E3. exists x', y', z'. auto. }
  assert (FB : forall x y z, set3 mb (x, y, z) -> exists x' y' z', set3 ma (x', y', z') /\ bx + x * va = ax + x' * va /\ by_ + y * va = ay + y' * va /\ bz + z * va = az + z' * va).
  { intros x y z H. destruct (proj2 (Hc (bx + x * va, by_ + y * va, bz + z * va))) as (x' & y' & z' & G & E).
    - exists x, y, z. split; [exact H|reflexivity].
    - injection E as E1 E2 E3. exists x', y', z'. auto. }
  assert (Bx : ax = bx /\ dimx ma = dimx mb).
  { destruct Ta as ((y1 & z1 & A1) & (y2 & z2 & A2) & _). destruct Tb as ((y3 & z3 & B1) & (y4 & z4 & B2) & _).
    destruct (FA _ _ _ A1) as (p1 & ? & ? & (P1 & _) & E1 & _). destruct (FA _ _ _ A2) as (p2 & ? & ? & (P2 & _) & E2 & _).
    destruct (FB _ _ _ B1) as (p3 & ? & ? & (P3 & _) & E3 & _). destruct (FB _ _ _ B2) as (p4 & ? & ? & (P4 & _) & E4 & _).
    unfold cell3, In3 in *. cbn [fst snd] in *. split; nia. }
  assert (By : ay = by_ /\ dimy ma = dimy mb).
  { destruct Ta as (_ & _ & (y1 & z1 & A1) & (y2 & z2 & A2) & _). destruct Tb as (_ & _ & (y3 & z3 & B1) & (y4 & z4 & B2) & _).
    destruct (FA _ _ _ A1) as (? & p1 & ? & (P1 & _) & _ & E1 & _). destruct (FA _ _ _ A2) as (? & p2 & ? & (P2 & _) & _ & E2 & _).
    destruct (FB _ _ _ B1) as (? & p3 & ? & (P3 & _) & _ & E3 & _). destruct (FB _ _ _ B2) as (? & p4 & ? & (P4 & _) & _ & E4 & _).
    unfold cell3, In3 in *. cbn [fst snd] in *. split; nia. }
  assert (Bz : az = bz /\ dimz ma = dimz mb).
  { destruct Ta as (_ & _ & _ & _ & (y1 & z1 & A1) & (y2 & z2 & A2)). destruct Tb as (_ & _ & _ & _ & (y3 & z3 & B1) & (y4 & z4 & B2)).
    destruct (FA _ _ _ A1) as (? & ? & p1 & (P1 & _) & _ & _ & E1). destruct (FA _ _ _ A2) as (? & ? & p2 & (P2 & _) & _ & _ & E2).
    destruct (FB _ _ _ B1) as (? & ? & p3 & (P3 & _) & _ & _ & E3). destruct (FB _ _ _ B2) as (? & ? & p4 & (P4 & _) & _ & _ & E4).
    unfold cell3, In3 in *. cbn [fst snd] in *. split; nia. }
  destruct Bx as [-> Dx], By as [-> Dy], Bz as [-> Dz].
  apply vox_eqb_spec. cbn [vsz vorg vmat]. split; [reflexivity|]. split; [reflexivity|].
  split; [exact Dx|]. split; [exact Dy|]. split; [exact Dz|].
  intros [[x y] z] Hcell.
  assert (Hiff : at3 ma (x, y, z) = true <-> at3 mb (x, y, z) = true).
  { split; intros H.
    - destruct (FA x y z (conj Hcell H)) as (x' & y' & z' & G & E1 & E2 & E3).
      assert (x' = x) by nia. assert (y' = y) by nia. assert (z' = z) by nia. subst. apply G.
    - assert (Hcb : cell3 mb (x, y, z)) by (unfold cell3 in *; rewrite <- Dx, <- Dy, <- Dz; exact Hcell).
      destruct (FB x y z (conj Hcb H)) as (x' & y' & z' & G & E1 & E2 & E3).
      assert (x' = x) by nia. assert (y' = y) by nia. assert (z' = z) by nia. subst. apply G. }
  destruct (at3 ma (x, y, z)), (at3 mb (x, y, z)); try reflexivity; [symmetry|]; apply Hiff; reflexivity.
Qed.

(** * paste and the logical operations *)
Lemma paste3_ok Nx Ny Nz sx sy sz m : wf3 m -> 0 <= sx -> 0 <= sy -> 0 <= sz ->
  sx + dimx m <= Nx -> sy + dimy m <= Ny -> sz + dimz m <= Nz ->
  exists r, paste3 Nx Ny Nz sx sy sz m = Ok r /\
    forall x y z, at3 r (x, y, z) = true <-> set3 m (x - sx, y - sy, z - sz).
Proof.
  intros (Wx & Wy & Wz) Sx Sy Sz Lx Ly Lz. unfold paste3.
  replace ((Nx <? 0) || (Ny <? 0) || (Nz <? 0)) with false
    by (symmetry; rewrite !orb_false_iff, !Z.ltb_ge; lia).
  assert (Hax : forall N s n, 0 <= n -> 0 <= s -> s + n <= N -> axis_ok N s n = true).
  { intros N s n H1 H2 H3. unfold axis_ok, slice_len. apply orb_true_iff. left. apply Z.eqb_eq. lia. }
  rewrite !Hax by lia. cbn [andb]. eexists. split; [reflexivity|]. intros x y z. cbn [at3].
  unfold set3, cell3. rewrite <- inb3_spec. destruct (inb3 _ _ _ _); intuition congruence.
Qed.

Definition op_guard3 (a b : vox3) : Prop :=
  wf3 (vmat a) /\ wf3 (vmat b) /\ 0 < vsz a /\ vsz a = vsz b /\
  fits (fst (fst (vorg a))) (dimx (vmat a)) (vsz a) /\ fits (snd (fst (vorg a))) (dimy (vmat a)) (vsz a) /\ fits (snd (vorg a)) (dimz (vmat a)) (vsz a) /\
  fits (fst (fst (vorg b))) (dimx (vmat b)) (vsz a) /\ fits (snd (fst (vorg b))) (dimy (vmat b)) (vsz a) /\ fits (snd (vorg b)) (dimz (vmat b)) (vsz a) /\
  (exists k, fst (fst (vorg a)) - fst (fst (vorg b)) = k * vsz a) /\
  (exists k, snd (fst (vorg a)) - snd (fst (vorg b)) = k * vsz a) /\
  (exists k, snd (vorg a) - snd (vorg b) = k * vsz a).

Lemma diff_min v x y : 0 < v -> (exists k, x - y = k * v) ->
  exists k l, 0 <= k /\ 0 <= l /\ x - Z.min x y = k * v /\ y - Z.min y x = l * v.
Proof. intros Hv [k Hk]. exists (Z.max k 0), (Z.max (- k) 0). destruct (Z.le_ge_cases 0 k); [assert (y <= x) by nia|assert (x <= y) by nia]; repeat split; nia. Qed.

(** p and q differ by multiples of v in each coordinate *)

Lemma crop3_lattice a : lattice3 (vsz a) (vorg a) (vorg (crop3 a)).
Proof.
  unfold lattice3. destruct (crop3_cases a) as [[-> _]|(mx & my & mz & -> & _)].
  - repeat split; exists 0; lia.
  - destruct (vorg a) as [[ox oy] oz]. unfold center3. cbn [fst snd]. split; [exists mx|split; [exists my|exists mz]]; reflexivity.
Qed.
Lemma lattice3_trans v p q r : lattice3 v p q -> lattice3 v q r -> lattice3 v p r.
Proof.
  intros ((a & A) & (b & B) & (c & C)) ((a' & A') & (b' & B') & (c' & C')). unfold lattice3. rewrite A', B', C', A, B, C.
  split; [exists (a + a')|split; [exists (b + b')|exists (c + c')]]; ring.
Qed.

Lemma idx_sub p g x a k v : p = g + x * v -> a = g + k * v -> p = a + (x - k) * v.
Proof. intros -> ->. ring. Qed.
Lemma idx_add p g i a k v : p = a + i * v -> a = g + k * v -> p = g + (i + k) * v.
Proof. intros -> ->. ring. Qed.

Lemma logical3_ok f a b : op_guard3 a b -> f false false = false ->
  exists r, logical3 f a b = Ok r /\ vsz r = vsz a /\ (wf3 (vmat r) /\ lattice3 (vsz a) (vorg a) (vorg r)) /\
    (forall p, center_of3 r p -> tight3 (vmat r)) /\
    forall p, exists A B : bool, (A = true <-> center_of3 a p) /\ (B = true <-> center_of3 b p) /\
      (center_of3 r p <-> f A B = true).
Proof.
  intros G Hf. destruct a as [ma [[ax ay] az] v], b as [mb [[bx by_] bz] vb]. unfold op_guard3 in G. cbn [vmat vorg vsz fst snd] in G.
  destruct G as (Wa & Wb & Hv & <- & F1 & F2 & F3 & F4 & F5 & F6 & Kx & Ky & Kz).
  destruct (diff_min v ax bx Hv Kx) as (kx & lx & Hkx & Hlx & Ekx & Elx).
  destruct (diff_min v ay by_ Hv Ky) as (ky & ly & Hky & Hly & Eky & Ely).
  destruct (diff_min v az bz Hv Kz) as (kz & lz & Hkz & Hlz & Ekz & Elz).
  unfold logical3. cbn [vmat vorg vsz]. rewrite Z.eqb_refl. cbn [negb].
  rewrite (axis_start_ok ax bx kx v Hv Ekx), (axis_start_ok bx ax lx v Hv Elx).
  rewrite (axis_start_ok ay by_ ky v Hv Eky), (axis_start_ok by_ ay ly v Hv Ely).
  rewrite (axis_start_ok az bz kz v Hv Ekz), (axis_start_ok bz az lz v Hv Elz).
  destruct Wa as (Wax & Way & Waz), Wb as (Wbx & Wby & Wbz).
  pose proof (axis_shape_ok ax (dimx ma) bx (dimx mb) kx v Hv Wax Hkx Ekx F1) as S1.
  pose proof (axis_shape_ok ay (dimy ma) by_ (dimy mb) ky v Hv Way Hky Eky F2) as S2.
  pose proof (axis_shape_ok az (dimz ma) bz (dimz mb) kz v Hv Waz Hkz Ekz F3) as S3.
  pose proof (axis_shape_ok bx (dimx mb) ax (dimx ma) lx v Hv Wbx Hlx Elx F4) as S4.
  pose proof (axis_shape_ok by_ (dimy mb) ay (dimy ma) ly v Hv Wby Hly Ely F5) as S5.
  pose proof (axis_shape_ok bz (dimz mb) az (dimz ma) lz v Hv Wbz Hlz Elz F6) as S6.
  rewrite axis_shape_comm in S4, S5, S6.
  set (Nx := axis_shape ax (dimx ma) bx (dimx mb) v) in *.
  set (Ny := axis_shape ay (dimy ma) by_ (dimy mb) v) in *.
  set (Nz := axis_shape az (dimz ma) bz (dimz mb) v) in *.
  destruct (paste3_ok Nx Ny Nz kx ky kz ma ltac:(unfold wf3; auto) Hkx Hky Hkz S1 S2 S3) as (ra & -> & Ra).
  destruct (paste3_ok Nx Ny Nz lx ly lz mb ltac:(unfold wf3; auto) Hlx Hly Hlz S4 S5 S6) as (rb & -> & Rb).
  cbn [bind]. eexists. split; [reflexivity|]. rewrite crop3_vsz. cbn [vsz].
  split; [reflexivity|]. split; [split; [apply crop3_wf; unfold wf3; cbn [vmat dimx dimy dimz]; lia|]|].
  { eapply lattice3_trans; [|apply crop3_lattice]. cbn [vorg vsz]. unfold lattice3, axis_gmin. cbn [fst snd].
    split; [exists (- kx)|split; [exists (- ky)|exists (- kz)]]; lia. }
  split; [intros p Hp; eapply crop3_tight; apply crop3_centers; exact Hp|].
  intros [[px py] pz].
  set (gx := axis_gmin ax bx) in *. set (gy := axis_gmin ay by_) in *. set (gz := axis_gmin az bz) in *.
  assert (EX : ax = gx + kx * v /\ bx = gx + lx * v) by (unfold gx, axis_gmin; lia).
  assert (EY : ay = gy + ky * v /\ by_ = gy + ly * v) by (unfold gy, axis_gmin; lia).
  assert (EZ : az = gz + kz * v /\ bz = gz + lz * v) by (unfold gz, axis_gmin; lia).
  (* index of p in the global grid, when it has one *)
  set (x := (px - gx) / v). set (y := (py - gy) / v). set (z := (pz - gz) / v).
  assert (Hidx : forall g q i, q = g + i * v -> (q - g) / v = i).
  { intros g q i ->. replace (g + i * v - g) with (i * v) by ring. apply Z.div_mul. lia. }
  set (onp := (px =? gx + x * v) && (py =? gy + y * v) && (pz =? gz + z * v)).
  exists (onp && at3 ra (x, y, z)), (onp && at3 rb (x, y, z)).
  assert (Honp : onp = true <-> px = gx + x * v /\ py = gy + y * v /\ pz = gz + z * v)
    by (unfold onp; rewrite !andb_true_iff, !Z.eqb_eq; tauto).
  split; [|split].
  - rewrite andb_true_iff, Honp, Ra. unfold center_of3. cbn [vmat vorg vsz fst snd]. split.
    + intros ((E1 & E2 & E3) & H). exists (x - kx), (y - ky), (z - kz). split; [exact H|].
      f_equal; [f_equal|]; [exact (idx_sub _ _ _ _ _ _ E1 (proj1 EX))|exact (idx_sub _ _ _ _ _ _ E2 (proj1 EY))|exact (idx_sub _ _ _ _ _ _ E3 (proj1 EZ))].
    + intros (i & j & k & H & E). injection E as E1 E2 E3.
      apply (fun e => idx_add _ _ _ _ _ _ e (proj1 EX)) in E1. apply (fun e => idx_add _ _ _ _ _ _ e (proj1 EY)) in E2. apply (fun e => idx_add _ _ _ _ _ _ e (proj1 EZ)) in E3.
      assert (Ix : x = i + kx) by (apply Hidx; exact E1). assert (Iy : y = j + ky) by (apply Hidx; exact E2). assert (Iz : z = k + kz) by (apply Hidx; exact E3).
      split; [rewrite Ix, Iy, Iz; auto|]. replace (x - kx) with i by lia. replace (y - ky) with j by lia. replace (z - kz) with k by lia. exact H.
  - rewrite andb_true_iff, Honp, Rb. unfold center_of3. cbn [vmat vorg vsz fst snd]. split.
    + intros ((E1 & E2 & E3) & H). exists (x - lx), (y - ly), (z - lz). split; [exact H|].
      f_equal; [f_equal|]; [exact (idx_sub _ _ _ _ _ _ E1 (proj2 EX))|exact (idx_sub _ _ _ _ _ _ E2 (proj2 EY))|exact (idx_sub _ _ _ _ _ _ E3 (proj2 EZ))].
    + intros (i & j & k & H & E). injection E as E1 E2 E3.
      apply (fun e => idx_add _ _ _ _ _ _ e (proj2 EX)) in E1. apply (fun e => idx_add _ _ _ _ _ _ e (proj2 EY)) in E2. apply (fun e => idx_add _ _ _ _ _ _ e (proj2 EZ)) in E3.
      assert (Ix : x = i + lx) by (apply Hidx; exact E1). assert (Iy : y = j + ly) by (apply Hidx; exact E2). assert (Iz : z = k + lz) by (apply Hidx; exact E3).
      split; [rewrite Ix, Iy, Iz; auto|]. replace (x - lx) with i by lia. replace (y - ly) with j by lia. replace (z - lz) with k by lia. exact H.
  - rewrite crop3_centers. unfold center_of3. cbn [vmat vorg vsz fst snd]. split.
    + intros (i & j & k & (Hc & H) & E). cbn [at3] in H. injection E as E1 E2 E3.
      assert (x = i) as -> by (apply Hidx; exact E1). assert (y = j) as -> by (apply Hidx; exact E2). assert (z = k) as -> by (apply Hidx; exact E3).
      rewrite (proj2 Honp) by auto. exact H.
    + intros H. destruct onp eqn:Eo; cbn [andb] in H; [|congruence].
      destruct (proj1 Honp eq_refl) as (E1 & E2 & E3).
      exists x, y, z. split; [|rewrite <- E1, <- E2, <- E3; reflexivity]. split; [|exact H].
      unfold cell3, In3. cbn [dimx dimy dimz fst snd].
      destruct (at3 ra (x, y, z)) eqn:Ea.
      * apply Ra in Ea. destruct Ea as [Ea _]. unfold cell3, In3 in Ea. cbn [fst snd] in Ea. lia.
      * destruct (at3 rb (x, y, z)) eqn:Eb; [|congruence].
        apply Rb in Eb. destruct Eb as [Eb _]. unfold cell3, In3 in Eb. cbn [fst snd] in Eb. lia.
Qed.
(*END3*)
