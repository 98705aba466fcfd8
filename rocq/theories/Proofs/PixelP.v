(** 2D counterpart of VoxelP. *)
From Verif.Model Require Import Base FloodFill VoxelMatrix.
From Verif.Spec Require Import GridSpec VoxelSpec.
From Verif.Proofs Require Import FloodFillP OuterP VoxelP.
From Coq Require Import Lia.
Open Scope Z_scope.

Lemma in_argwhere2 m c : In c (argwhere2 m) <-> set2 m c.
Proof. unfold argwhere2, set2, cell2. rewrite filter_In, in_cells2. reflexivity. Qed.

Lemma pixel_centers_spec a p : In p (pixel_centers a) <-> center_of2 a p.
Proof.
  unfold pixel_centers, center_of2. rewrite in_map_iff. destruct (porg a) as [ox oy]. cbn [fst snd]. split.
  - intros ([x y] & <- & H). exists x, y. rewrite <- in_argwhere2. split; [exact H|reflexivity].
  - intros (x & y & H & ->). exists (x, y). rewrite in_argwhere2. split; [reflexivity|exact H].
Qed.

Lemma crop2_cases a :
  (crop2 a = a /\ forall c, ~ set2 (pmat a) c) \/
  (exists mx my, porg (crop2 a) = center2 (porg a) (psz a) (mx, my) /\ psz (crop2 a) = psz a /\
    tight2 (pmat (crop2 a)) /\ wf2 (pmat (crop2 a)) /\
    forall x y, set2 (pmat (crop2 a)) (x, y) <-> set2 (pmat a) (x + mx, y + my)).
Proof.
  unfold crop2. destruct (argwhere2 (pmat a)) as [|[x y] l] eqn:E.
  - left. split; [reflexivity|]. intros c H. apply in_argwhere2 in H. rewrite E in H. destruct H.
  - right.
    assert (HI : forall q, In q ((x, y) :: l) <-> set2 (pmat a) q) by (intros q; rewrite <- E; apply in_argwhere2).
    pose proof (lmin_map (fun c : Z * Z => fst c) (x, y) l) as [(qx & Hqx & Eqx) Lx].
    pose proof (lmax_map (fun c : Z * Z => fst c) (x, y) l) as [(Qx & HQx & EQx) Ux].
    pose proof (lmin_map (fun c : Z * Z => snd c) (x, y) l) as [(qy & Hqy & Eqy) Ly].
    pose proof (lmax_map (fun c : Z * Z => snd c) (x, y) l) as [(Qy & HQy & EQy) Uy].
    cbn [fst snd] in *. change (map (fun c : Z * Z => snd c) l) with (map snd l) in *.
    change (map (fun c : Z * Z => fst c) l) with (map fst l) in *.
    set (mx := lmin x _) in *. set (Mx := lmax x _) in *.
    set (my := lmin y _) in *. set (My := lmax y _) in *.
    exists mx, my. cbn [porg psz pmat].
    split; [reflexivity|]. split; [reflexivity|].
    assert (Hb : forall q, set2 (pmat a) q -> mx <= fst q <= Mx /\ my <= snd q <= My).
    { intros q Hq. apply HI in Hq. specialize (Lx q Hq). specialize (Ux q Hq). specialize (Ly q Hq). specialize (Uy q Hq). lia. }
    assert (Hs : forall x0 y0,
       set2 {| rows := Mx + 1 - mx; cols := My + 1 - my;
               at2 := fun c => let '(x1, y1) := c in at2 (pmat a) (x1 + mx, y1 + my) |} (x0, y0)
       <-> set2 (pmat a) (x0 + mx, y0 + my)).
    { intros x0 y0. unfold set2 at 1, cell2, In2. cbn [rows cols at2 fst snd]. split.
      - intros [Hr Ha]. split; [|exact Ha].
        apply HI in Hqx, HQx, Hqy, HQy. unfold set2, cell2, In2 in *. cbn [fst snd]. lia.
      - intros H. destruct (Hb _ H) as (B1 & B2). cbn [fst snd] in *. split; [lia|apply H]. }
    apply HI in Hqx, HQx, Hqy, HQy.
    split; [|split].
    + unfold tight2. cbn [rows cols].
      destruct qx as [x1 y1], Qx as [x2 y2], qy as [x3 y3], Qy as [x4 y4].
      cbn [fst snd] in *.
      repeat match goal with |- _ /\ _ => split end.
      * exists (y1 - my). apply Hs. replace (y1 - my + my) with y1 by lia. replace (0 + mx) with x1 by lia. exact Hqx.
      * exists (y2 - my). apply Hs. replace (y2 - my + my) with y2 by lia. replace (Mx + 1 - mx - 1 + mx) with x2 by lia. exact HQx.
      * exists (x3 - mx). apply Hs. replace (x3 - mx + mx) with x3 by lia. replace (0 + my) with y3 by lia. exact Hqy.
      * exists (x4 - mx). apply Hs. replace (x4 - mx + mx) with x4 by lia. replace (My + 1 - my - 1 + my) with y4 by lia. exact HQy.
    + unfold wf2. cbn [rows cols]. destruct (Hb _ Hqx) as (B1 & B2). lia.
    + exact Hs.
Qed.

Lemma crop2_centers a p : center_of2 (crop2 a) p <-> center_of2 a p.
Proof.
  destruct (crop2_cases a) as [[-> _]|(mx & my & Ho & Hv & _ & _ & Hs)]; [reflexivity|].
  unfold center_of2. rewrite Ho, Hv. destruct (porg a) as [ox oy]. unfold center2. cbn [fst snd]. split.
  - intros (x & y & H & ->). exists (x + mx), (y + my). split; [apply Hs; exact H|].
    f_equal; ring.
  - intros (x & y & H & ->). exists (x - mx), (y - my). split.
    + apply Hs. replace (x - mx + mx) with x by lia. replace (y - my + my) with y by lia. exact H.
    + f_equal; ring.
Qed.

Lemma crop2_tight a p : center_of2 a p -> tight2 (pmat (crop2 a)).
Proof.
  destruct (crop2_cases a) as [[_ H]|(mx & my & _ & _ & H & _)]; [|intros _; exact H].
  intros (x & y & G & _). destruct (H _ G).
Qed.

Lemma crop2_wf a : wf2 (pmat a) -> wf2 (pmat (crop2 a)).
Proof. destruct (crop2_cases a) as [[-> _]|(mx & my & _ & _ & _ & H & _)]; [intros H; exact H|intros _; exact H]. Qed.
Lemma crop2_psz a : psz (crop2 a) = psz a.
Proof. destruct (crop2_cases a) as [[-> _]|(mx & my & _ & H & _)]; [reflexivity|exact H]. Qed.

Lemma pix_eqb_spec a b : pix_eqb a b = true <-> psz a = psz b /\ porg a = porg b /\ same2 (pmat a) (pmat b).
Proof.
  unfold pix_eqb, mat2_eqb, same2. rewrite !andb_true_iff, eqb2_spec, !Z.eqb_eq, forallb_forall.
  split.
  - intros ((Hv & Ho) & ((H1 & H2) & H4)). repeat (split; [assumption|]).
    intros c Hc. apply Bool.eqb_prop. apply H4. apply in_cells2. exact Hc.
  - intros (Hv & Ho & H1 & H2 & H4). repeat split; try assumption.
    intros c Hc. apply Bool.eqb_true_iff. apply H4. apply in_cells2. exact Hc.
Qed.

Lemma tight_unique2 a b : 0 < psz a -> psz a = psz b -> tight2 (pmat a) -> tight2 (pmat b) ->
  (forall p, center_of2 a p <-> center_of2 b p) -> pix_eqb a b = true.
Proof.
  intros Hv0 Hv Ta Tb Hc. destruct a as [ma [ax ay] va], b as [mb [bx by_] vb]. cbn [pmat porg psz] in *. subst vb.
  unfold center_of2 in Hc. cbn [pmat porg psz fst snd] in Hc.
  assert (FA : forall x y, set2 ma (x, y) -> exists x' y', set2 mb (x', y') /\ ax + x * va = bx + x' * va /\ ay + y * va = by_ + y' * va).
  { intros x y H. destruct (proj1 (Hc (ax + x * va, ay + y * va))) as (x' & y' & G & E).
    - exists x, y. split; [exact H|reflexivity].
    - injection E as E1 E2. exists x', y'. auto. }
  assert (FB : forall x y, set2 mb (x, y) -> exists x' y', set2 ma (x', y') /\ bx + x * va = ax + x' * va /\ by_ + y * va = ay + y' * va).
  { intros x y H. destruct (proj2 (Hc (bx + x * va, by_ + y * va))) as (x' & y' & G & E).
    - exists x, y. split; [exact H|reflexivity].
    - injection E as E1 E2. exists x', y'. auto. }
  assert (Bx : ax = bx /\ rows ma = rows mb).
  { destruct Ta as ((y1 & A1) & (y2 & A2) & _). destruct Tb as ((y3 & B1) & (y4 & B2) & _).
    destruct (FA _ _ A1) as (p1 & ? & (P1 & _) & E1 & _). destruct (FA _ _ A2) as (p2 & ? & (P2 & _) & E2 & _).
    destruct (FB _ _ B1) as (p3 & ? & (P3 & _) & E3 & _). destruct (FB _ _ B2) as (p4 & ? & (P4 & _) & E4 & _).
    unfold cell2, In2 in *. cbn [fst snd] in *. split; nia. }
  assert (By : ay = by_ /\ cols ma = cols mb).
  { destruct Ta as (_ & _ & (y1 & A1) & (y2 & A2)). destruct Tb as (_ & _ & (y3 & B1) & (y4 & B2)).
    destruct (FA _ _ A1) as (? & p1 & (P1 & _) & _ & E1). destruct (FA _ _ A2) as (? & p2 & (P2 & _) & _ & E2).
    destruct (FB _ _ B1) as (? & p3 & (P3 & _) & _ & E3). destruct (FB _ _ B2) as (? & p4 & (P4 & _) & _ & E4).
    unfold cell2, In2 in *. cbn [fst snd] in *. split; nia. }
  destruct Bx as [-> Dx], By as [-> Dy].
  apply pix_eqb_spec. cbn [psz porg pmat]. split; [reflexivity|]. split; [reflexivity|].
  split; [exact Dx|]. split; [exact Dy|].
  intros [x y] Hcell.
  assert (Hiff : at2 ma (x, y) = true <-> at2 mb (x, y) = true).
  { split; intros H.
    - destruct (FA x y (conj Hcell H)) as (x' & y' & G & E1 & E2).
      assert (x' = x) by nia. assert (y' = y) by nia. subst. apply G.
    - assert (Hcb : cell2 mb (x, y)) by (unfold cell2 in *; rewrite <- Dx, <- Dy; exact Hcell).
      destruct (FB x y (conj Hcb H)) as (x' & y' & G & E1 & E2).
      assert (x' = x) by nia. assert (y' = y) by nia. subst. apply G. }
  destruct (at2 ma (x, y)), (at2 mb (x, y)); try reflexivity; [symmetry|]; apply Hiff; reflexivity.
Qed.

Lemma paste2_ok Nx Ny sx sy m : wf2 m -> 0 <= sx -> 0 <= sy ->
  sx + rows m <= Nx -> sy + cols m <= Ny ->
  exists r, paste2 Nx Ny sx sy m = Ok r /\
    forall x y, at2 r (x, y) = true <-> set2 m (x - sx, y - sy).
Proof.
  intros (Wx & Wy) Sx Sy Lx Ly. unfold paste2.
  replace ((Nx <? 0) || (Ny <? 0)) with false
    by (symmetry; rewrite !orb_false_iff, !Z.ltb_ge; lia).
  assert (Hax : forall N s n, 0 <= n -> 0 <= s -> s + n <= N -> axis_ok N s n = true).
  { intros N s n H1 H2 H3. unfold axis_ok, slice_len. apply orb_true_iff. left. apply Z.eqb_eq. lia. }
  rewrite !Hax by lia. cbn [andb]. eexists. split; [reflexivity|]. intros x y. cbn [at2].
  unfold set2, cell2. rewrite <- inb2_spec. destruct (inb2 _ _ _); intuition congruence.
Qed.

Definition op_guard2 (a b : pix2) : Prop :=
  wf2 (pmat a) /\ wf2 (pmat b) /\ 0 < psz a /\ psz a = psz b /\
  fits (fst (porg a)) (rows (pmat a)) (psz a) /\ fits (snd (porg a)) (cols (pmat a)) (psz a) /\
  fits (fst (porg b)) (rows (pmat b)) (psz a) /\ fits (snd (porg b)) (cols (pmat b)) (psz a) /\
  (exists k, fst (porg a) - fst (porg b) = k * psz a) /\
  (exists k, snd (porg a) - snd (porg b) = k * psz a).

Lemma crop2_lattice a : lattice2 (psz a) (porg a) (porg (crop2 a)).
Proof.
  unfold lattice2. destruct (crop2_cases a) as [[-> _]|(mx & my & -> & _)].
  - repeat split; exists 0; lia.
  - destruct (porg a) as [ox oy]. unfold center2. cbn [fst snd]. split; [exists mx|exists my]; reflexivity.
Qed.
Lemma lattice2_trans v p q r : lattice2 v p q -> lattice2 v q r -> lattice2 v p r.
Proof.
  intros ((a & A) & (b & B)) ((a' & A') & (b' & B')). unfold lattice2. rewrite A', B', A, B.
  split; [exists (a + a')|exists (b + b')]; ring.
Qed.

Lemma logical2_ok f a b : op_guard2 a b -> f false false = false ->
  exists r, logical2 f a b = Ok r /\ psz r = psz a /\ (wf2 (pmat r) /\ lattice2 (psz a) (porg a) (porg r)) /\
    (forall p, center_of2 r p -> tight2 (pmat r)) /\
    forall p, exists A B : bool, (A = true <-> center_of2 a p) /\ (B = true <-> center_of2 b p) /\
      (center_of2 r p <-> f A B = true).
Proof.
  intros G Hf. destruct a as [ma [ax ay] v], b as [mb [bx by_] vb]. unfold op_guard2 in G. cbn [pmat porg psz fst snd] in G.
  destruct G as (Wa & Wb & Hv & <- & F1 & F2 & F4 & F5 & Kx & Ky).
  destruct (diff_min v ax bx Hv Kx) as (kx & lx & Hkx & Hlx & Ekx & Elx).
  destruct (diff_min v ay by_ Hv Ky) as (ky & ly & Hky & Hly & Eky & Ely).
  unfold logical2. cbn [pmat porg psz]. rewrite Z.eqb_refl. cbn [negb].
  rewrite (axis_start_ok ax bx kx v Hv Ekx), (axis_start_ok bx ax lx v Hv Elx).
  rewrite (axis_start_ok ay by_ ky v Hv Eky), (axis_start_ok by_ ay ly v Hv Ely).
  destruct Wa as (Wax & Way), Wb as (Wbx & Wby).
  pose proof (axis_shape_ok ax (rows ma) bx (rows mb) kx v Hv Wax Hkx Ekx F1) as S1.
  pose proof (axis_shape_ok ay (cols ma) by_ (cols mb) ky v Hv Way Hky Eky F2) as S2.
  pose proof (axis_shape_ok bx (rows mb) ax (rows ma) lx v Hv Wbx Hlx Elx F4) as S4.
  pose proof (axis_shape_ok by_ (cols mb) ay (cols ma) ly v Hv Wby Hly Ely F5) as S5.
  rewrite axis_shape_comm in S4, S5.
  set (Nx := axis_shape ax (rows ma) bx (rows mb) v) in *.
  set (Ny := axis_shape ay (cols ma) by_ (cols mb) v) in *.
  destruct (paste2_ok Nx Ny kx ky ma ltac:(unfold wf2; auto) Hkx Hky S1 S2) as (ra & -> & Ra).
  destruct (paste2_ok Nx Ny lx ly mb ltac:(unfold wf2; auto) Hlx Hly S4 S5) as (rb & -> & Rb).
  cbn [bind]. eexists. split; [reflexivity|]. rewrite crop2_psz. cbn [psz].
  split; [reflexivity|]. split; [split; [apply crop2_wf; unfold wf2; cbn [pmat rows cols]; lia|]|].
  { eapply lattice2_trans; [|apply crop2_lattice]. cbn [porg psz]. unfold lattice2, axis_gmin. cbn [fst snd].
    split; [exists (- kx)|exists (- ky)]; lia. }
  split; [intros p Hp; eapply crop2_tight; apply crop2_centers; exact Hp|].
  intros [px py].
  set (gx := axis_gmin ax bx) in *. set (gy := axis_gmin ay by_) in *.
  assert (EX : ax = gx + kx * v /\ bx = gx + lx * v) by (unfold gx, axis_gmin; lia).
  assert (EY : ay = gy + ky * v /\ by_ = gy + ly * v) by (unfold gy, axis_gmin; lia).
  set (x := (px - gx) / v). set (y := (py - gy) / v).
  assert (Hidx : forall g q i, q = g + i * v -> (q - g) / v = i).
  { intros g q i ->. replace (g + i * v - g) with (i * v) by ring. apply Z.div_mul. lia. }
  set (onp := (px =? gx + x * v) && (py =? gy + y * v)).
  exists (onp && at2 ra (x, y)), (onp && at2 rb (x, y)).
  assert (Honp : onp = true <-> px = gx + x * v /\ py = gy + y * v)
    by (unfold onp; rewrite !andb_true_iff, !Z.eqb_eq; tauto).
  split; [|split].
  - rewrite andb_true_iff, Honp, Ra. unfold center_of2. cbn [pmat porg psz fst snd]. split.
    + intros ((E1 & E2) & H). exists (x - kx), (y - ky). split; [exact H|].
      f_equal; [exact (idx_sub _ _ _ _ _ _ E1 (proj1 EX))|exact (idx_sub _ _ _ _ _ _ E2 (proj1 EY))].
    + intros (i & j & H & E). injection E as E1 E2.
      apply (fun e => idx_add _ _ _ _ _ _ e (proj1 EX)) in E1. apply (fun e => idx_add _ _ _ _ _ _ e (proj1 EY)) in E2.
      assert (Ix : x = i + kx) by (apply Hidx; exact E1). assert (Iy : y = j + ky) by (apply Hidx; exact E2).
      split; [rewrite Ix, Iy; auto|]. replace (x - kx) with i by lia. replace (y - ky) with j by lia. exact H.
  - rewrite andb_true_iff, Honp, Rb. unfold center_of2. cbn [pmat porg psz fst snd]. split.
    + intros ((E1 & E2) & H). exists (x - lx), (y - ly). split; [exact H|].
      f_equal; [exact (idx_sub _ _ _ _ _ _ E1 (proj2 EX))|exact (idx_sub _ _ _ _ _ _ E2 (proj2 EY))].
    + intros (i & j & H & E). injection E as E1 E2.
      apply (fun e => idx_add _ _ _ _ _ _ e (proj2 EX)) in E1. apply (fun e => idx_add _ _ _ _ _ _ e (proj2 EY)) in E2.
      assert (Ix : x = i + lx) by (apply Hidx; exact E1). assert (Iy : y = j + ly) by (apply Hidx; exact E2).
      split; [rewrite Ix, Iy; auto|]. replace (x - lx) with i by lia. replace (y - ly) with j by lia. exact H.
  - rewrite crop2_centers. unfold center_of2. cbn [pmat porg psz fst snd]. split.
    + intros (i & j & (Hc & H) & E). cbn [at2] in H. injection E as E1 E2.
      assert (x = i) as -> by (apply Hidx; exact E1). assert (y = j) as -> by (apply Hidx; exact E2).
      rewrite (proj2 Honp) by auto. exact H.
    + intros H. destruct onp eqn:Eo; cbn [andb] in H; [|congruence].
      destruct (proj1 Honp eq_refl) as (E1 & E2).
      exists x, y. split; [|rewrite <- E1, <- E2; reflexivity]. split; [|exact H].
      unfold cell2, In2. cbn [rows cols fst snd].
      destruct (at2 ra (x, y)) eqn:Ea.
      * apply Ra in Ea. destruct Ea as [Ea _]. unfold cell2, In2 in Ea. cbn [fst snd] in Ea. lia.
      * destruct (at2 rb (x, y)) eqn:Eb; [|congruence].
        apply Rb in Eb. destruct Eb as [Eb _]. unfold cell2, In2 in Eb. cbn [fst snd] in Eb. lia.
Qed.
