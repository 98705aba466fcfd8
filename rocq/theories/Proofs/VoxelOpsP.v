From Verif.Model Require Import Base FloodFill VoxelMatrix.
From Verif.Spec Require Import GridSpec VoxelSpec.
From Verif.Proofs Require Import FloodFillP OuterP VoxelP PixelP.
From Coq Require Import Lia.
Open Scope Z_scope.

(** * Guards *)

Lemma fits_grid v o n : size_ok v -> grid_coord v o -> fits o n v.
Proof.
  intros [Hv [H|[H [l Hl]]]] [k Hk].
  - apply fits_small. unfold one. lia.
  - apply fits_micro; [unfold one; lia| |].
    + exists ((2 * k + 1) * l). nia.
    + exists (2 * l). lia.
Qed.

Lemma grid_mult v x y : grid_coord v x -> grid_coord v y -> exists k, x - y = k * v.
Proof. intros [k Hk] [l Hl]. exists (k - l). nia. Qed.


Lemma guard3 a b : valid3 a -> valid3 b -> vsz a = vsz b -> size_ok (vsz a) -> op_guard3 a b.
Proof.
  intros [Wa Ga] [Wb Gb] Hv Hs. rewrite <- Hv in Gb. destruct Ga as (A1 & A2 & A3), Gb as (B1 & B2 & B3).
  repeat (split; [first [assumption|apply Hs|apply fits_grid; assumption|apply grid_mult; assumption]|]).
  apply grid_mult; assumption.
Qed.
Lemma guard2 a b : valid2 a -> valid2 b -> psz a = psz b -> size_ok (psz a) -> op_guard2 a b.
Proof.
  intros [Wa Ga] [Wb Gb] Hv Hs. rewrite <- Hv in Gb. destruct Ga as (A1 & A2), Gb as (B1 & B2).
  repeat (split; [first [assumption|apply Hs|apply fits_grid; assumption|apply grid_mult; assumption]|]).
  apply grid_mult; assumption.
Qed.

Ltac boolean_op H Hr :=
  let p := fresh "p" in let A := fresh "A" in let B := fresh "B" in
  intros p; destruct (H p) as (A & B & HA & HB & Hr); rewrite Hr, <- HA, <- HB; destruct A, B; cbn; intuition congruence.

Lemma union3_ok a b : valid3 a -> valid3 b -> vsz a = vsz b -> size_ok (vsz a) ->
  exists r, union3 a b = Ok r /\ vsz r = vsz a /\ (wf3 (vmat r) /\ lattice3 (vsz a) (vorg a) (vorg r)) /\ (forall p, center_of3 r p -> tight3 (vmat r)) /\
   forall p, center_of3 r p <-> center_of3 a p \/ center_of3 b p.
Proof.
  intros Va Vb Hv Hs. destruct (logical3_ok orb a b (guard3 a b Va Vb Hv Hs) eq_refl) as (r & Hr & H1 & H2 & H3 & H).
  exists r. repeat (split; [assumption|]). boolean_op H Hq.
Qed.
Lemma difference3_ok a b : valid3 a -> valid3 b -> vsz a = vsz b -> size_ok (vsz a) ->
  exists r, difference3 a b = Ok r /\ vsz r = vsz a /\ (wf3 (vmat r) /\ lattice3 (vsz a) (vorg a) (vorg r)) /\ (forall p, center_of3 r p -> tight3 (vmat r)) /\
   forall p, center_of3 r p <-> center_of3 a p /\ ~ center_of3 b p.
Proof.
  intros Va Vb Hv Hs. destruct (logical3_ok (fun a b => andb a (negb b)) a b (guard3 a b Va Vb Hv Hs) eq_refl) as (r & Hr & H1 & H2 & H3 & H).
  exists r. repeat (split; [assumption|]). boolean_op H Hq.
Qed.
Lemma intersection3_ok a b : valid3 a -> valid3 b -> vsz a = vsz b -> size_ok (vsz a) ->
  exists r, intersection3 a b = Ok r /\ vsz r = vsz a /\ (wf3 (vmat r) /\ lattice3 (vsz a) (vorg a) (vorg r)) /\ (forall p, center_of3 r p -> tight3 (vmat r)) /\
   forall p, center_of3 r p <-> center_of3 a p /\ center_of3 b p.
Proof.
  intros Va Vb Hv Hs. destruct (logical3_ok andb a b (guard3 a b Va Vb Hv Hs) eq_refl) as (r & Hr & H1 & H2 & H3 & H).
  exists r. repeat (split; [assumption|]). boolean_op H Hq.
Qed.
Lemma symmetric_difference3_ok a b : valid3 a -> valid3 b -> vsz a = vsz b -> size_ok (vsz a) ->
  exists r, symmetric_difference3 a b = Ok r /\ vsz r = vsz a /\ (wf3 (vmat r) /\ lattice3 (vsz a) (vorg a) (vorg r)) /\ (forall p, center_of3 r p -> tight3 (vmat r)) /\
   forall p, center_of3 r p <-> (center_of3 a p /\ ~ center_of3 b p) \/ (center_of3 b p /\ ~ center_of3 a p).
Proof.
  intros Va Vb Hv Hs. destruct (logical3_ok xorb a b (guard3 a b Va Vb Hv Hs) eq_refl) as (r & Hr & H1 & H2 & H3 & H).
  exists r. repeat (split; [assumption|]). boolean_op H Hq.
Qed.
Lemma union2_ok a b : valid2 a -> valid2 b -> psz a = psz b -> size_ok (psz a) ->
  exists r, union2 a b = Ok r /\ psz r = psz a /\ (wf2 (pmat r) /\ lattice2 (psz a) (porg a) (porg r)) /\ (forall p, center_of2 r p -> tight2 (pmat r)) /\
   forall p, center_of2 r p <-> center_of2 a p \/ center_of2 b p.
Proof.
  intros Va Vb Hv Hs. destruct (logical2_ok orb a b (guard2 a b Va Vb Hv Hs) eq_refl) as (r & Hr & H1 & H2 & H3 & H).
  exists r. repeat (split; [assumption|]). boolean_op H Hq.
Qed.
Lemma difference2_ok a b : valid2 a -> valid2 b -> psz a = psz b -> size_ok (psz a) ->
  exists r, difference2 a b = Ok r /\ psz r = psz a /\ (wf2 (pmat r) /\ lattice2 (psz a) (porg a) (porg r)) /\ (forall p, center_of2 r p -> tight2 (pmat r)) /\
   forall p, center_of2 r p <-> center_of2 a p /\ ~ center_of2 b p.
Proof.
  intros Va Vb Hv Hs. destruct (logical2_ok (fun a b => andb a (negb b)) a b (guard2 a b Va Vb Hv Hs) eq_refl) as (r & Hr & H1 & H2 & H3 & H).
  exists r. repeat (split; [assumption|]). boolean_op H Hq.
Qed.
Lemma intersection2_ok a b : valid2 a -> valid2 b -> psz a = psz b -> size_ok (psz a) ->
  exists r, intersection2 a b = Ok r /\ psz r = psz a /\ (wf2 (pmat r) /\ lattice2 (psz a) (porg a) (porg r)) /\ (forall p, center_of2 r p -> tight2 (pmat r)) /\
   forall p, center_of2 r p <-> center_of2 a p /\ center_of2 b p.
Proof.
  intros Va Vb Hv Hs. destruct (logical2_ok andb a b (guard2 a b Va Vb Hv Hs) eq_refl) as (r & Hr & H1 & H2 & H3 & H).
  exists r. repeat (split; [assumption|]). boolean_op H Hq.
Qed.
Lemma symmetric_difference2_ok a b : valid2 a -> valid2 b -> psz a = psz b -> size_ok (psz a) ->
  exists r, symmetric_difference2 a b = Ok r /\ psz r = psz a /\ (wf2 (pmat r) /\ lattice2 (psz a) (porg a) (porg r)) /\ (forall p, center_of2 r p -> tight2 (pmat r)) /\
   forall p, center_of2 r p <-> (center_of2 a p /\ ~ center_of2 b p) \/ (center_of2 b p /\ ~ center_of2 a p).
Proof.
  intros Va Vb Hv Hs. destruct (logical2_ok xorb a b (guard2 a b Va Vb Hv Hs) eq_refl) as (r & Hr & H1 & H2 & H3 & H).
  exists r. repeat (split; [assumption|]). boolean_op H Hq.
Qed.

Lemma logical3_size f a b : vsz a <> vsz b -> logical3 f a b = Err ValueError.
Proof. intros H. unfold logical3. apply Z.eqb_neq in H. rewrite H. reflexivity. Qed.
Lemma logical2_size f a b : psz a <> psz b -> logical2 f a b = Err ValueError.
Proof. intros H. unfold logical2. apply Z.eqb_neq in H. rewrite H. reflexivity. Qed.

Lemma is_intersecting3_ok a b : valid3 a -> valid3 b -> vsz a = vsz b -> size_ok (vsz a) ->
  exists t, is_intersecting3 a b = Ok t /\ (t = true <-> exists p, center_of3 a p /\ center_of3 b p).
Proof.
  intros Va Vb Hv Hs. destruct (intersection3_ok a b Va Vb Hv Hs) as (r & Hr & _ & _ & _ & H).
  unfold is_intersecting3. rewrite Hr. cbn [bind]. eexists. split; [reflexivity|].
  rewrite negb_true_iff, Nat.eqb_neq. split.
  - intros Hl. destruct (argwhere3 (vmat r)) as [|[[x y] z] l] eqn:E; [cbn in Hl; lia|].
    exists (fst (fst (vorg r)) + x * vsz r, snd (fst (vorg r)) + y * vsz r, snd (vorg r) + z * vsz r).
    apply H. exists x, y, z. split; [|reflexivity]. apply in_argwhere3. rewrite E. left. reflexivity.
  - intros (p & Hp). apply H in Hp. destruct Hp as (x & y & z & Hs' & _). apply in_argwhere3 in Hs'.
    destruct (argwhere3 (vmat r)); [destruct Hs'|cbn; lia].
Qed.

(** * Enclosed filling *)

Lemma fill_enclosed3_ok a : valid3 a -> size_ok (vsz a) ->
  exists r, fill_enclosed3 a = Ok r /\ vsz r = vsz a /\ (wf3 (vmat r) /\ lattice3 (vsz a) (vorg a) (vorg r)) /\ (forall p, center_of3 r p -> tight3 (vmat r)) /\
    forall p, center_of3 r p <-> center_of3 a p \/ cavity_center3 a p.
Proof.
  intros [Wa Ga] Hs. destruct (fill_outer3_correct a Wa) as (o & Ho & D1 & D2 & D3 & Oo & So & HO).
  unfold fill_enclosed3. rewrite Ho. cbn [bind].
  assert (Vi : valid3 (inverse3 o)).
  { split; [unfold wf3 in *; cbn; rewrite D1, D2, D3; exact Wa|]. cbn. rewrite So, Oo. exact Ga. }
  destruct (union3_ok a (inverse3 o) (conj Wa Ga) Vi) as (r & Hr & H1 & H2 & H3 & H); [cbn; symmetry; exact So|exact Hs|].
  exists r. repeat (split; [assumption|]). intros p. rewrite H.
  assert (Hc : center_of3 (inverse3 o) p <-> cavity_center3 a p); [|rewrite Hc; reflexivity].
  unfold center_of3, cavity_center3. cbn [inverse3 vmat vorg vsz]. rewrite Oo, So.
  split; intros (x & y & z & G & E); exists x, y, z; (split; [|exact E]).
  - destruct G as [Gc Ga']. cbn [at3] in Ga'. unfold cell3 in Gc. cbn [dimx dimy dimz] in Gc. rewrite D1, D2, D3 in Gc.
    apply negb_true_iff in Ga'. pose proof (HO (x, y, z) Gc) as HOc. split; [exact Gc|].
    assert (N : ~ (at3 (vmat a) (x, y, z) = true \/ open3 (vmat a) (x, y, z))) by (intros N; apply HOc in N; congruence).
    split; [destruct (at3 (vmat a) (x, y, z)); [destruct N; left; reflexivity|reflexivity]|].
    intros Hop. apply N. right. exact Hop.
  - destruct G as (Gc & Gf & Gn). split; [unfold cell3; cbn [dimx dimy dimz]; rewrite D1, D2, D3; exact Gc|].
    cbn [at3]. apply negb_true_iff. destruct (at3 (vmat o) (x, y, z)) eqn:Eo; [|reflexivity].
    apply (HO _ Gc) in Eo. destruct Eo as [Eo|Eo]; [congruence|contradiction].
Qed.

Lemma fill_enclosed2_ok a : valid2 a -> size_ok (psz a) ->
  exists r, fill_enclosed2 a = Ok r /\ psz r = psz a /\ (wf2 (pmat r) /\ lattice2 (psz a) (porg a) (porg r)) /\ (forall p, center_of2 r p -> tight2 (pmat r)) /\
    forall p, center_of2 r p <-> center_of2 a p \/ cavity_center2 a p.
Proof.
  intros [Wa Ga] Hs. destruct (fill_outer2_correct a Wa) as (o & Ho & D1 & D2 & Oo & So & HO).
  unfold fill_enclosed2. rewrite Ho. cbn [bind].
  assert (Vi : valid2 (inverse2 o)).
  { split; [unfold wf2 in *; cbn; rewrite D1, D2; exact Wa|]. cbn. rewrite So, Oo. exact Ga. }
  destruct (union2_ok a (inverse2 o) (conj Wa Ga) Vi) as (r & Hr & H1 & H2 & H3 & H); [cbn; symmetry; exact So|exact Hs|].
  exists r. repeat (split; [assumption|]). intros p. rewrite H.
  assert (Hc : center_of2 (inverse2 o) p <-> cavity_center2 a p); [|rewrite Hc; reflexivity].
  unfold center_of2, cavity_center2. cbn [inverse2 pmat porg psz]. rewrite Oo, So.
  split; intros (x & y & G & E); exists x, y; (split; [|exact E]).
  - destruct G as [Gc Ga']. cbn [at2] in Ga'. unfold cell2 in Gc. cbn [rows cols] in Gc. rewrite D1, D2 in Gc.
    apply negb_true_iff in Ga'. pose proof (HO (x, y) Gc) as HOc. split; [exact Gc|].
    assert (N : ~ (at2 (pmat a) (x, y) = true \/ open2 (pmat a) (x, y))) by (intros N; apply HOc in N; congruence).
    split; [destruct (at2 (pmat a) (x, y)); [destruct N; left; reflexivity|reflexivity]|].
    intros Hop. apply N. right. exact Hop.
  - destruct G as (Gc & Gf & Gn). split; [unfold cell2; cbn [rows cols]; rewrite D1, D2; exact Gc|].
    cbn [at2]. apply negb_true_iff. destruct (at2 (pmat o) (x, y)) eqn:Eo; [|reflexivity].
    apply (HO _ Gc) in Eo. destruct Eo as [Eo|Eo]; [congruence|contradiction].
Qed.

Lemma lattice_grid3 v p q : on_grid3 v p -> lattice3 v p q -> on_grid3 v q.
Proof.
  intros ((a & A) & (b & B) & (c & C)) ((a' & A') & (b' & B') & (c' & C')). unfold on_grid3, grid_coord. rewrite A', B', C'.
  split; [exists (a + a')|split; [exists (b + b')|exists (c + c')]]; lia.
Qed.
Lemma lattice_grid2 v p q : on_grid2 v p -> lattice2 v p q -> on_grid2 v q.
Proof.
  intros ((a & A) & (b & B)) ((a' & A') & (b' & B')). unfold on_grid2, grid_coord. rewrite A', B'.
  split; [exists (a + a')|exists (b + b')]; lia.
Qed.

(** A place outside a box containing the obstacles can be joined to the outside of any other box. *)
Lemma escape3 (S : Z * Z * Z -> Prop) m n dx dy dz : (forall c, S c -> cell3 m c) ->
  forall o, ~ cell3 m o -> exists e, ~ cell3 n (fst (fst e) - dx, snd (fst e) - dy, snd e - dz) /\ path adj3 (fun d => ~ S d) e o.
Proof.
  intros HS [[x y] z] Ho.
  assert (C : x < 0 \/ dimx m <= x \/ y < 0 \/ dimy m <= y \/ z < 0 \/ dimz m <= z).
  { unfold cell3, In3 in Ho. cbn [fst snd] in Ho. lia. }
  assert (Hline : forall (f : Z -> Z * Z * Z) t, 0 <= t -> f 0 = (x, y, z) -> (forall u, 0 <= u -> adj3 (f u) (f (u + 1))) ->
     (forall u, 0 <= u -> ~ cell3 m (f u)) -> path adj3 (fun d => ~ S d) (f t) (x, y, z)).
  { intros f t Ht H0 Hadj Hout. apply path_sym; [apply adj3_sym|]. rewrite <- H0. apply path_line; [exact Ht|exact Hadj|].
    intros u Hu HSu. apply HS in HSu. exact (Hout u (proj1 Hu) HSu). }
  destruct C as [C|[C|[C|[C|[C|C]]]]].
  - exists (x - Z.max 0 (x - dx + 1), y, z). split; [unfold cell3, In3; cbn [fst snd]; lia|].
    apply (Hline (fun u => (x - u, y, z))); [lia|rewrite Z.sub_0_r; reflexivity|unfold adj3; cbn [fst snd]; lia|].
    intros u Hu. unfold cell3, In3. cbn [fst snd]. lia.
  - exists (x + Z.max 0 (dimx n + dx - x), y, z). split; [unfold cell3, In3; cbn [fst snd]; lia|].
    apply (Hline (fun u => (x + u, y, z))); [lia|rewrite Z.add_0_r; reflexivity|unfold adj3; cbn [fst snd]; lia|].
    intros u Hu. unfold cell3, In3. cbn [fst snd]. lia.
  - exists (x, y - Z.max 0 (y - dy + 1), z). split; [unfold cell3, In3; cbn [fst snd]; lia|].
    apply (Hline (fun u => (x, y - u, z))); [lia|rewrite Z.sub_0_r; reflexivity|unfold adj3; cbn [fst snd]; lia|].
    intros u Hu. unfold cell3, In3. cbn [fst snd]. lia.
  - exists (x, y + Z.max 0 (dimy n + dy - y), z). split; [unfold cell3, In3; cbn [fst snd]; lia|].
    apply (Hline (fun u => (x, y + u, z))); [lia|rewrite Z.add_0_r; reflexivity|unfold adj3; cbn [fst snd]; lia|].
    intros u Hu. unfold cell3, In3. cbn [fst snd]. lia.
  - exists (x, y, z - Z.max 0 (z - dz + 1)). split; [unfold cell3, In3; cbn [fst snd]; lia|].
    apply (Hline (fun u => (x, y, z - u))); [lia|rewrite Z.sub_0_r; reflexivity|unfold adj3; cbn [fst snd]; lia|].
    intros u Hu. unfold cell3, In3. cbn [fst snd]. lia.
  - exists (x, y, z + Z.max 0 (dimz n + dz - z)). split; [unfold cell3, In3; cbn [fst snd]; lia|].
    apply (Hline (fun u => (x, y, z + u))); [lia|rewrite Z.add_0_r; reflexivity|unfold adj3; cbn [fst snd]; lia|].
    intros u Hu. unfold cell3, In3. cbn [fst snd]. lia.
Qed.

Lemma path_shift3 (P Q : Z * Z * Z -> Prop) dx dy dz c e :
  (forall d, P d -> Q (fst (fst d) - dx, snd (fst d) - dy, snd d - dz)) -> path adj3 P c e ->
  path adj3 Q (fst (fst c) - dx, snd (fst c) - dy, snd c - dz) (fst (fst e) - dx, snd (fst e) - dy, snd e - dz).
Proof.
  intros HPQ H. induction H as [c Hc|c d e H IH Hadj He]; [apply path_here; apply HPQ; exact Hc|].
  eapply path_step; [exact IH| |apply HPQ; exact He]. unfold adj3 in *. cbn [fst snd]. lia.
Qed.

Lemma fill_enclosed3_idem a r : valid3 a -> size_ok (vsz a) -> fill_enclosed3 a = Ok r ->
  exists r', fill_enclosed3 r = Ok r' /\ forall p, center_of3 r' p <-> center_of3 r p.
Proof.
  intros Va Hs Hr. destruct (fill_enclosed3_ok a Va Hs) as (r0 & Hr0 & Sr & (Wr & Lr) & _ & HR).
  rewrite Hr in Hr0. injection Hr0 as <-.
  assert (Vr : valid3 r) by (split; [exact Wr|rewrite Sr; eapply lattice_grid3; [apply Va|exact Lr]]).
  destruct (fill_enclosed3_ok r Vr ltac:(rewrite Sr; exact Hs)) as (r' & Hr' & _ & _ & _ & HR').
  exists r'. split; [exact Hr'|]. intros p. rewrite HR'. split; [|tauto]. intros [H|H]; [exact H|]. exfalso.
  destruct H as (x & y & z & (Hc & Hf & Hno) & _).
  destruct Lr as ((dx & Dx) & (dy & Dy) & (dz & Dz)).
  pose proof (proj1 Hs) as Hv.
  (* occupied cells of r, in the indices of a *)
  set (S := fun c : Z * Z * Z => set3 (vmat r) (fst (fst c) - dx, snd (fst c) - dy, snd c - dz)).
  assert (HS : forall i j k, S (i, j, k) <-> set3 (vmat a) (i, j, k) \/ cavity3 (vmat a) (i, j, k)).
  { intros i j k. unfold S. cbn [fst snd].
    assert (G1 : set3 (vmat r) (i - dx, j - dy, k - dz) <-> center_of3 r (fst (fst (vorg a)) + i * vsz a, snd (fst (vorg a)) + j * vsz a, snd (vorg a) + k * vsz a)).
    { unfold center_of3. rewrite Dx, Dy, Dz, Sr. split.
      - intros G. exists (i - dx), (j - dy), (k - dz). split; [exact G|]. f_equal; [f_equal|]; ring.
      - intros (i' & j' & k' & G & E). injection E as E1 E2 E3.
        replace (i - dx) with i' by nia. replace (j - dy) with j' by nia. replace (k - dz) with k' by nia. exact G. }
    rewrite G1, HR. unfold center_of3, cavity_center3. split.
    - intros [(i' & j' & k' & G & E)|(i' & j' & k' & G & E)]; injection E as E1 E2 E3;
      (assert (i' = i) by nia; assert (j' = j) by nia; assert (k' = k) by nia; subst); [left|right]; exact G.
    - intros [G|G]; [left|right]; exists i, j, k; split; try exact G; reflexivity. }
  assert (HSc : forall c, S c -> cell3 (vmat a) c).
  { intros [[i j] k] G. apply HS in G. destruct G as [G|G]; apply G. }
  apply Hno.
  set (c := (x + dx, y + dy, z + dz)).
  assert (HcS : ~ S c).
  { unfold S, c. cbn [fst snd]. replace (x + dx - dx) with x by lia. replace (y + dy - dy) with y by lia. replace (z + dz - dz) with z by lia.
    intros [_ G]. congruence. }
  (* c is outside the grid of a, or open in a *)
  assert (Hout : exists o, ~ cell3 (vmat a) o /\ path adj3 (fun d => ~ S d) o c).
  { destruct (cell3_dec (vmat a) c) as [Hca|Hca].
    - destruct (fill_outer3_correct a (proj1 Va)) as (o & _ & _ & _ & _ & _ & _ & HO).
      specialize (HO c Hca). destruct (at3 (vmat o) c) eqn:Eo.
      + destruct (proj1 HO eq_refl) as [G|(q & Hq & Hp)].
        * destruct HcS. unfold c. apply HS. left. split; assumption.
        * exists q. split; [exact Hq|].
          (* every cell of the path is open, hence not a cavity *)
          assert (Hall : forall e, path adj3 (fun d => ~ set3 (vmat a) d) q e -> path adj3 (fun d => ~ S d) q e).
          { intros e He. assert (Hmono : forall e, path adj3 (fun d => ~ set3 (vmat a) d) q e -> ~ S e).
            { intros [[i j] k] He' Hse. apply HS in Hse. destruct Hse as [G|(_ & _ & G)].
              - exact (path_end _ _ _ _ He' G).
              - apply G. exists q. split; [exact Hq|exact He']. }
            induction He as [e He|e d e' He IH Hadj He'].
            - apply path_here. apply Hmono. apply path_here. exact He.
            - eapply path_step; [apply IH; assumption|exact Hadj|]. apply Hmono. eapply path_step; eassumption. }
          apply Hall. exact Hp.
      + exfalso. apply HcS. unfold c. apply HS. right. split; [exact Hca|]. split.
        * destruct (at3 (vmat a) (x + dx, y + dy, z + dz)) eqn:Ea; [|reflexivity].
          assert (false = true) by (apply HO; left; exact Ea). discriminate.
        * intros G. assert (false = true) by (apply HO; right; exact G). discriminate.
    - exists c. split; [exact Hca|apply path_here; exact HcS]. }
  destruct Hout as (o & Ho & Hp).
  destruct (escape3 S (vmat a) (vmat r) dx dy dz HSc o Ho) as (e & He & Hpe).
  exists (fst (fst e) - dx, snd (fst e) - dy, snd e - dz). split; [exact He|].
  pose proof (path_trans _ _ _ _ _ Hpe Hp) as Hp'.
  apply (path_shift3 _ (fun d => ~ set3 (vmat r) d) dx dy dz) in Hp'; [|intros d Hd; exact Hd].
  unfold c in Hp'. cbn [fst snd] in Hp'.
  replace (x + dx - dx) with x in Hp' by lia. replace (y + dy - dy) with y in Hp' by lia. replace (z + dz - dz) with z in Hp' by lia.
  exact Hp'.
Qed.

(** * is_hollow *)

Lemma tight3_center a : tight3 (vmat a) -> exists p, center_of3 a p.
Proof. intros ((y & z & H) & _). eexists. exists 0, y, z. split; [exact H|reflexivity]. Qed.
Lemma tight2_center a : tight2 (pmat a) -> exists p, center_of2 a p.
Proof. intros ((y & H) & _). eexists. exists 0, y. split; [exact H|reflexivity]. Qed.

Lemma is_hollow3_ok a : valid3 a -> size_ok (vsz a) -> tight3 (vmat a) ->
  exists t, is_hollow3 a = Ok t /\ (t = true <-> ~ hollow3 (vmat a)).
Proof.
  intros Va Hs Ta. destruct (fill_enclosed3_ok a Va Hs) as (r & Hr & Hv & _ & Ht & H).
  unfold is_hollow3. rewrite Hr. cbn [bind]. eexists. split; [reflexivity|]. split.
  - intros Heq ([[x y] z] & Hcav). apply vox_eqb_spec in Heq. destruct Heq as (_ & Ho & D1 & D2 & D3 & Hsame).
    assert (Hc : center_of3 r (fst (fst (vorg a)) + x * vsz a, snd (fst (vorg a)) + y * vsz a, snd (vorg a) + z * vsz a)).
    { apply H. right. exists x, y, z. split; [exact Hcav|reflexivity]. }
    destruct Hc as (x' & y' & z' & [Hcell Hset] & E). rewrite Ho, Hv in E. injection E as E1 E2 E3.
    destruct Hs as [Hpos _].
    assert (x' = x) by nia. assert (y' = y) by nia. assert (z' = z) by nia. subst.
    rewrite Hsame in Hset by exact Hcell. destruct Hcav as (_ & Hf & _). congruence.
  - intros Hn. assert (Hc : forall p, center_of3 r p <-> center_of3 a p).
    { intros p. rewrite H. split; [|tauto]. intros [G|(x & y & z & G & _)]; [exact G|]. destruct Hn. exists (x, y, z). exact G. }
    destruct (tight3_center a Ta) as (p & Hp). apply tight_unique3; try assumption.
    + rewrite Hv. apply Hs.
    + apply (Ht p). apply Hc. exact Hp.
Qed.
Lemma is_hollow2_ok a : valid2 a -> size_ok (psz a) -> tight2 (pmat a) ->
  exists t, is_hollow2 a = Ok t /\ (t = true <-> ~ hollow2 (pmat a)).
Proof.
  intros Va Hs Ta. destruct (fill_enclosed2_ok a Va Hs) as (r & Hr & Hv & _ & Ht & H).
  unfold is_hollow2. rewrite Hr. cbn [bind]. eexists. split; [reflexivity|]. split.
  - intros Heq ([x y] & Hcav). apply pix_eqb_spec in Heq. destruct Heq as (_ & Ho & D1 & D2 & Hsame).
    assert (Hc : center_of2 r (fst (porg a) + x * psz a, snd (porg a) + y * psz a)).
    { apply H. right. exists x, y. split; [exact Hcav|reflexivity]. }
    destruct Hc as (x' & y' & [Hcell Hset] & E). rewrite Ho, Hv in E. injection E as E1 E2.
    destruct Hs as [Hpos _].
    assert (x' = x) by nia. assert (y' = y) by nia. subst.
    rewrite Hsame in Hset by exact Hcell. destruct Hcav as (_ & Hf & _). congruence.
  - intros Hn. assert (Hc : forall p, center_of2 r p <-> center_of2 a p).
    { intros p. rewrite H. split; [|tauto]. intros [G|(x & y & G & _)]; [exact G|]. destruct Hn. exists (x, y). exact G. }
    destruct (tight2_center a Ta) as (p & Hp). apply tight_unique2; try assumption.
    + rewrite Hv. apply Hs.
    + apply (Ht p). apply Hc. exact Hp.
Qed.

(** * inverse *)
Lemma inverse3_ok a p : 0 < vsz a ->
  (center_of3 (inverse3 a) p <->
   ~ center_of3 a p /\ exists x y z, cell3 (vmat a) (x, y, z) /\
      p = (fst (fst (vorg a)) + x * vsz a, snd (fst (vorg a)) + y * vsz a, snd (vorg a) + z * vsz a)).
Proof.
  intros Hv. unfold center_of3, set3. cbn [inverse3 vmat vorg vsz at3]. unfold cell3. cbn [dimx dimy dimz]. split.
  - intros (x & y & z & [Hc Hn] & E). split.
    + intros (x' & y' & z' & [Hc' Hs] & E'). rewrite E in E'. injection E' as E1 E2 E3.
      assert (x' = x) by nia. assert (y' = y) by nia. assert (z' = z) by nia. subst. rewrite Hs in Hn. discriminate.
    + exists x, y, z. split; [exact Hc|exact E].
  - intros (Hn & x & y & z & Hc & E). exists x, y, z. split; [split; [exact Hc|]|exact E].
    apply negb_true_iff. destruct (at3 (vmat a) (x, y, z)) eqn:Ea; [|reflexivity].
    destruct Hn. exists x, y, z. split; [split; assumption|exact E].
Qed.
Lemma inverse3_invol a : vox_eqb (inverse3 (inverse3 a)) a = true.
Proof.
  apply vox_eqb_spec. cbn. split; [reflexivity|]. split; [reflexivity|]. unfold same3. cbn. repeat (split; [reflexivity|]).
  intros c _. apply negb_involutive.
Qed.
Lemma inverse2_ok a p : 0 < psz a ->
  (center_of2 (inverse2 a) p <->
   ~ center_of2 a p /\ exists x y, cell2 (pmat a) (x, y) /\ p = (fst (porg a) + x * psz a, snd (porg a) + y * psz a)).
Proof.
  intros Hv. unfold center_of2, set2. cbn [inverse2 pmat porg psz at2]. unfold cell2. cbn [rows cols]. split.
  - intros (x & y & [Hc Hn] & E). split.
    + intros (x' & y' & [Hc' Hs] & E'). rewrite E in E'. injection E' as E1 E2.
      assert (x' = x) by nia. assert (y' = y) by nia. subst. rewrite Hs in Hn. discriminate.
    + exists x, y. split; [exact Hc|exact E].
  - intros (Hn & x & y & Hc & E). exists x, y. split; [split; [exact Hc|]|exact E].
    apply negb_true_iff. destruct (at2 (pmat a) (x, y)) eqn:Ea; [|reflexivity].
    destruct Hn. exists x, y. split; [split; assumption|exact E].
Qed.
Lemma inverse2_invol a : pix_eqb (inverse2 (inverse2 a)) a = true.
Proof.
  apply pix_eqb_spec. cbn. split; [reflexivity|]. split; [reflexivity|]. unfold same2. cbn. repeat (split; [reflexivity|]).
  intros c _. apply negb_involutive.
Qed.

(** * crop *)
Lemma crop3_idem a : 0 < vsz a -> vox_eqb (crop3 (crop3 a)) (crop3 a) = true.
Proof.
  intros Hv. destruct (crop3_cases a) as [[E _]|(mx & my & mz & _ & Hv' & Ht & _)].
  - rewrite !E. apply vox_eqb_spec. repeat split; reflexivity.
  - apply tight_unique3.
    + rewrite !crop3_vsz. exact Hv.
    + apply crop3_vsz.
    + destruct (tight3_center _ Ht) as (p & Hp). exact (crop3_tight _ _ Hp).
    + exact Ht.
    + apply crop3_centers.
Qed.
Lemma crop3_canonical a b : 0 < vsz a -> vsz a = vsz b -> (exists p, center_of3 a p) ->
  (forall p, center_of3 a p <-> center_of3 b p) -> vox_eqb (crop3 a) (crop3 b) = true.
Proof.
  intros Hv Hab (p & Hp) Hc. apply tight_unique3.
  - rewrite crop3_vsz. exact Hv.
  - rewrite !crop3_vsz. exact Hab.
  - exact (crop3_tight _ _ Hp).
  - exact (crop3_tight _ _ (proj1 (Hc p) Hp)).
  - intros q. rewrite !crop3_centers. apply Hc.
Qed.
Lemma crop2_idem a : 0 < psz a -> pix_eqb (crop2 (crop2 a)) (crop2 a) = true.
Proof.
  intros Hv. destruct (crop2_cases a) as [[E _]|(mx & my & _ & Hv' & Ht & _)].
  - rewrite !E. apply pix_eqb_spec. repeat split; reflexivity.
  - apply tight_unique2.
    + rewrite !crop2_psz. exact Hv.
    + apply crop2_psz.
    + destruct (tight2_center _ Ht) as (p & Hp). exact (crop2_tight _ _ Hp).
    + exact Ht.
    + apply crop2_centers.
Qed.
Lemma crop2_canonical a b : 0 < psz a -> psz a = psz b -> (exists p, center_of2 a p) ->
  (forall p, center_of2 a p <-> center_of2 b p) -> pix_eqb (crop2 a) (crop2 b) = true.
Proof.
  intros Hv Hab (p & Hp) Hc. apply tight_unique2.
  - rewrite crop2_psz. exact Hv.
  - rewrite !crop2_psz. exact Hab.
  - exact (crop2_tight _ _ Hp).
  - exact (crop2_tight _ _ (proj1 (Hc p) Hp)).
  - intros q. rewrite !crop2_centers. apply Hc.
Qed.

(** * points <-> matrix *)
Lemma mem3_spec c l : mem3 c l = true <-> In c l.
Proof.
  unfold mem3. rewrite existsb_exists. split.
  - intros (d & Hd & E). apply eqb3_spec in E. subst. exact Hd.
  - intros H. exists c. split; [exact H|]. apply eqb3_spec. reflexivity.
Qed.

Lemma to_matrix_ok a : 0 < pvs a -> pcs a <> [] -> (forall p, In p (pcs a) -> on_grid3 (pvs a) p) ->
  exists m, to_matrix a = Ok m /\ vsz m = pvs a /\ wf3 (vmat m) /\ tight3 (vmat m) /\ on_grid3 (pvs a) (vorg m) /\
    forall p, center_of3 m p <-> In p (pcs a).
Proof.
  destruct a as [l v]. cbn [pcs pvs]. intros Hv Hne Hg. destruct l as [|p l]; [congruence|].
  unfold to_matrix. cbn [pcs pvs]. destruct p as [[x y] z]. unfold pmin3, pmax3.
  set (L := (x, y, z) :: l) in *.
  pose proof (lmin_map (fun c : Z * Z * Z => fst (fst c)) (x, y, z) l) as [(qx & Hqx & Eqx) Lx].
  pose proof (lmax_map (fun c : Z * Z * Z => fst (fst c)) (x, y, z) l) as [(Qx & HQx & EQx) Ux].
  pose proof (lmin_map (fun c : Z * Z * Z => snd (fst c)) (x, y, z) l) as [(qy & Hqy & Eqy) Ly].
  pose proof (lmax_map (fun c : Z * Z * Z => snd (fst c)) (x, y, z) l) as [(Qy & HQy & EQy) Uy].
  pose proof (lmin_map (fun c : Z * Z * Z => snd c) (x, y, z) l) as [(qz & Hqz & Eqz) Lz].
  pose proof (lmax_map (fun c : Z * Z * Z => snd c) (x, y, z) l) as [(Qz & HQz & EQz) Uz].
  fold L in Hqx, HQx, Hqy, HQy, Hqz, HQz, Lx, Ux, Ly, Uy, Lz, Uz.
  cbn [fst snd] in *. change (map (fun c : Z * Z * Z => snd c) l) with (map snd l) in *.
  set (mx := lmin x _) in *. set (Mx := lmax x _) in *.
  set (my := lmin y _) in *. set (My := lmax y _) in *.
  set (mz := lmin z _) in *. set (Mz := lmax z _) in *.
  assert (Gm : on_grid3 v (mx, my, mz)).
  { unfold on_grid3. cbn [fst snd]. rewrite <- Eqx, <- Eqy, <- Eqz.
    split; [apply (Hg qx Hqx)|split; [apply (Hg qy Hqy)|apply (Hg qz Hqz)]]. }
  destruct Gm as (Gx & Gy & Gz). cbn [fst snd] in Gx, Gy, Gz.
  assert (Idx : forall c, In c L -> exists i j k, c = (mx + i * v, my + j * v, mz + k * v) /\ 0 <= i /\ 0 <= j /\ 0 <= k /\
      round_int (fst (fst c) - mx) v = i /\ round_int (snd (fst c) - my) v = j /\ round_int (snd c - mz) v = k).
  { intros [[cx cy] cz] Hc. destruct (Hg _ Hc) as (C1 & C2 & C3). cbn [fst snd] in *.
    destruct (grid_mult _ _ _ C1 Gx) as (i & Hi). destruct (grid_mult _ _ _ C2 Gy) as (j & Hj). destruct (grid_mult _ _ _ C3 Gz) as (k & Hk).
    specialize (Lx _ Hc). specialize (Ly _ Hc). specialize (Lz _ Hc). cbn [fst snd] in *.
    exists i, j, k. split; [f_equal; [f_equal|]; lia|]. rewrite Hi, Hj, Hk. unfold round_int. rewrite !rint_exact by exact Hv.
    repeat split; nia. }
  destruct (Idx Qx HQx) as (Ix & ? & ? & EIx & PIx & _ & _ & RIx & _).
  destruct (Idx Qy HQy) as (? & Iy & ? & EIy & _ & PIy & _ & _ & RIy & _).
  destruct (Idx Qz HQz) as (? & ? & Iz & EIz & _ & _ & PIz & _ & _ & RIz).
  assert (EMx : Mx = mx + Ix * v) by (rewrite <- EQx, EIx; reflexivity).
  assert (EMy : My = my + Iy * v) by (rewrite <- EQy, EIy; reflexivity).
  assert (EMz : Mz = mz + Iz * v) by (rewrite <- EQz, EIz; reflexivity).
  assert (Dim : forall m M I, M = m + I * v -> round_int (M - m + v) v = I + 1).
  { intros m M I ->. replace (m + I * v - m + v) with ((I + 1) * v) by ring. apply rint_exact. exact Hv. }
  rewrite (Dim _ _ _ EMx), (Dim _ _ _ EMy), (Dim _ _ _ EMz).
  set (idx := map _ L).
  assert (Hin : forall i j k, In (i, j, k) idx <-> In (mx + i * v, my + j * v, mz + k * v) L).
  { intros i j k. unfold idx. rewrite in_map_iff. split.
    - intros ([[cx cy] cz] & E & Hc). destruct (Idx _ Hc) as (i' & j' & k' & E' & _ & _ & _ & R1 & R2 & R3). cbn [fst snd] in *.
      rewrite R1, R2, R3 in E. injection E as -> -> ->. rewrite <- E'. exact Hc.
    - intros Hc. eexists. split; [|exact Hc]. destruct (Idx _ Hc) as (i' & j' & k' & E' & _ & _ & _ & R1 & R2 & R3). cbn [fst snd] in *.
      rewrite R1, R2, R3. injection E' as E1 E2 E3. f_equal; [f_equal|]; nia. }
  assert (Hrange : forall i j k, In (mx + i * v, my + j * v, mz + k * v) L -> In3 (Ix + 1) (Iy + 1) (Iz + 1) (i, j, k)).
  { intros i j k Hc. pose proof (Lx _ Hc). pose proof (Ux _ Hc). pose proof (Ly _ Hc). pose proof (Uy _ Hc). pose proof (Lz _ Hc). pose proof (Uz _ Hc).
    cbn [fst snd] in *. unfold In3. cbn [fst snd]. rewrite EMx, EMy, EMz in *.
    clear - Hv H H0 H1 H2 H3 H4. repeat split; nia. }
  replace (forallb (inb3 (Ix + 1) (Iy + 1) (Iz + 1)) idx) with true.
  2: { symmetry. apply forallb_forall. intros [[i j] k] Hc. apply inb3_spec. apply Hrange. apply Hin. exact Hc. }
  eexists. split; [reflexivity|]. cbn [vsz vmat vorg]. split; [reflexivity|].
  set (M := {| dimx := Ix + 1; dimy := Iy + 1; dimz := Iz + 1; at3 := fun c => mem3 c idx |}).
  assert (Hset : forall i j k, set3 M (i, j, k) <-> In (mx + i * v, my + j * v, mz + k * v) L).
  { intros i j k. unfold set3, cell3, M. cbn [dimx dimy dimz at3]. rewrite mem3_spec, Hin. split; [tauto|]. intros H. split; [apply Hrange; exact H|exact H]. }
  assert (Hrep : forall c, In c L -> exists i j k, set3 M (i, j, k) /\ c = (mx + i * v, my + j * v, mz + k * v)).
  { intros c Hc. destruct (Idx _ Hc) as (i & j & k & E & _). exists i, j, k. split; [|exact E]. apply Hset. rewrite <- E. exact Hc. }
  split; [unfold wf3, M; cbn [dimx dimy dimz]; lia|]. split; [|split].
  - unfold tight3.
    replace (dimx M - 1) with Ix by (unfold M; cbn [dimx]; lia). replace (dimy M - 1) with Iy by (unfold M; cbn [dimy]; lia).
    replace (dimz M - 1) with Iz by (unfold M; cbn [dimz]; lia).
    destruct (Hrep _ Hqx) as (i1 & j1 & k1 & S1 & E1). destruct (Hrep _ Hqy) as (i2 & j2 & k2 & S2 & E2). destruct (Hrep _ Hqz) as (i3 & j3 & k3 & S3 & E3).
    destruct (Hrep _ HQx) as (i4 & j4 & k4 & S4 & E4). destruct (Hrep _ HQy) as (i5 & j5 & k5 & S5 & E5). destruct (Hrep _ HQz) as (i6 & j6 & k6 & S6 & E6).
    rewrite E1 in Eqx. rewrite E2 in Eqy. rewrite E3 in Eqz. rewrite E4 in EQx. rewrite E5 in EQy. rewrite E6 in EQz. cbn [fst snd] in *.
    assert (i1 = 0) by nia. assert (j2 = 0) by nia. assert (k3 = 0) by nia.
    assert (i4 = Ix) by nia. assert (j5 = Iy) by nia. assert (k6 = Iz) by nia. subst i1 j2 k3 i4 j5 k6.
    split; [exists j1, k1; exact S1|]. split; [exists j4, k4; exact S4|]. split; [exists i2, k2; exact S2|].
    split; [exists i5, k5; exact S5|]. split; [exists i3, j3; exact S3|exists i6, j6; exact S6].
  - unfold on_grid3. cbn [fst snd]. auto.
  - intros q. unfold center_of3. cbn [vmat vorg vsz fst snd]. split.
    + intros (i & j & k & S & ->). apply Hset. exact S.
    + intros Hq. destruct (Hrep _ Hq) as (i & j & k & S & E). exists i, j, k. split; [exact S|exact E].
Qed.

Lemma NoDup_map_inj {A B} (f : A -> B) l : (forall x y, In x l -> In y l -> f x = f y -> x = y) -> NoDup l -> NoDup (map f l).
Proof.
  intros Hf Hn. induction Hn as [|x l Hx Hn IH]; cbn; [constructor|]. constructor.
  - intros H. apply in_map_iff in H. destruct H as (y & E & Hy). assert (x = y) by (apply Hf; [left; reflexivity|right; exact Hy|symmetry; exact E]). subst. contradiction.
  - apply IH. intros a b Ha Hb. apply Hf; right; assumption.
Qed.
Lemma NoDup_zrange a b : NoDup (zrange a b).
Proof. unfold zrange. apply NoDup_map_inj; [|apply seq_NoDup]. intros x y _ _ E. lia. Qed.
Lemma NoDup_app_intro {A} (l l' : list A) : NoDup l -> NoDup l' -> (forall x, In x l -> In x l' -> False) -> NoDup (l ++ l').
Proof.
  induction l as [|a l IH]; intros H1 H2 H3; [exact H2|]. cbn. inversion H1 as [|? ? Ha Hl]; subst. constructor.
  - rewrite in_app_iff. intros [H|H]; [contradiction|]. apply (H3 a); [left; reflexivity|exact H].
  - apply IH; try assumption. intros x Hx Hx'. apply (H3 x); [right; exact Hx|exact Hx'].
Qed.
Lemma NoDup_flat_map {A B} (f : A -> list B) l : NoDup l -> (forall x, In x l -> NoDup (f x)) ->
  (forall x y b, In x l -> In y l -> In b (f x) -> In b (f y) -> x = y) -> NoDup (flat_map f l).
Proof.
  intros Hn. induction Hn as [|a l Ha Hn IH]; intros H1 H2; cbn; [constructor|].
  apply NoDup_app_intro.
  - apply H1. left. reflexivity.
  - apply IH; [intros x Hx; apply H1; right; exact Hx|]. intros x y b Hx Hy. apply H2; right; assumption.
  - intros b Hb Hb'. apply in_flat_map in Hb'. destruct Hb' as (y & Hy & Hby).
    assert (a = y) by (apply (H2 a y b); [left; reflexivity|right; exact Hy|exact Hb|exact Hby]). subst. contradiction.
Qed.
Lemma NoDup_cells3 a b c : NoDup (cells3 a b c).
Proof.
  unfold cells3. apply NoDup_flat_map; [apply NoDup_zrange| |].
  - intros x _. apply NoDup_flat_map; [apply NoDup_zrange| |].
    + intros y _. apply NoDup_map_inj; [|apply NoDup_zrange]. intros z z' _ _ E. congruence.
    + intros y y' t _ _ H1 H2. apply in_map_iff in H1, H2. destruct H1 as (z & <- & _), H2 as (z' & E & _). congruence.
  - intros x x' t _ _ H1 H2. apply in_flat_map in H1, H2. destruct H1 as (y & _ & H1), H2 as (y' & _ & H2).
    apply in_map_iff in H1, H2. destruct H1 as (z & <- & _), H2 as (z' & E & _). congruence.
Qed.
Lemma voxel_centers_NoDup a : 0 < vsz a -> NoDup (voxel_centers a).
Proof.
  intros Hv. unfold voxel_centers. apply NoDup_map_inj.
  - intros [[x y] z] [[x' y'] z'] _ _. unfold center3. destruct (vorg a) as [[ox oy] oz]. intros E. injection E as E1 E2 E3.
    f_equal; [f_equal|]; nia.
  - unfold argwhere3. apply NoDup_filter. apply NoDup_cells3.
Qed.

Lemma points_roundtrip a : 0 < pvs a -> pcs a <> [] -> (forall p, In p (pcs a) -> on_grid3 (pvs a) p) ->
  exists m, to_matrix a = Ok m /\ pvs (to_points m) = pvs a /\ NoDup (pcs (to_points m)) /\
    forall p, In p (pcs (to_points m)) <-> In p (pcs a).
Proof.
  intros Hv Hne Hg. destruct (to_matrix_ok a Hv Hne Hg) as (m & Hm & Hs & _ & _ & _ & H).
  exists m. split; [exact Hm|]. split; [exact Hs|]. cbn [to_points pcs]. split.
  - apply voxel_centers_NoDup. rewrite Hs. exact Hv.
  - intros p. rewrite voxel_centers_spec. apply H.
Qed.
Lemma grid_shift v o i : grid_coord v o -> grid_coord v (o + i * v).
Proof. intros [k Hk]. exists (k + i). lia. Qed.
Lemma matrix_roundtrip a : valid3 a -> 0 < vsz a -> (exists p, center_of3 a p) ->
  exists m, to_matrix (to_points a) = Ok m /\ vox_eqb m (crop3 a) = true.
Proof.
  intros [W (G1 & G2 & G3)] Hv (p & Hp).
  destruct (to_matrix_ok (to_points a)) as (m & Hm & Hs & _ & Ht & _ & H).
  - exact Hv.
  - intros E. assert (In p (pcs (to_points a))) by (apply voxel_centers_spec; exact Hp). rewrite E in H. destruct H.
  - intros q Hq. apply voxel_centers_spec in Hq. destruct Hq as (x & y & z & _ & ->).
    unfold on_grid3. cbn [fst snd]. cbn [to_points pvs]. auto using grid_shift.
  - exists m. split; [exact Hm|]. cbn [to_points pvs] in Hs. apply tight_unique3.
    + rewrite Hs. exact Hv.
    + rewrite crop3_vsz. exact Hs.
    + exact Ht.
    + exact (crop3_tight _ _ Hp).
    + intros q. rewrite H, crop3_centers. cbn [to_points pcs]. apply voxel_centers_spec.
Qed.

(** * point_to_index *)
Lemma point_to_index_center a x y z : 0 < pvs a -> In (x, y, z) (pcs a) -> (forall p, In p (pcs a) -> on_grid3 (pvs a) p) ->
  exists m i j k, to_matrix a = Ok m /\ set3 (vmat m) (i, j, k) /\
    (x, y, z) = (fst (fst (vorg m)) + i * vsz m, snd (fst (vorg m)) + j * vsz m, snd (vorg m) + k * vsz m) /\
    point_to_index a (x, y, z) = Ok (i + 1, j + 1, k + 1).
Proof.
  intros Hv Hin Hg.
  destruct (to_matrix_ok a Hv ltac:(intros E; rewrite E in Hin; destruct Hin) Hg) as (m & Hm & Hs & _ & _ & _ & H).
  destruct (proj2 (H _) Hin) as (i & j & k & Hset & E). exists m, i, j, k. repeat (split; [assumption|]).
  destruct a as [l v]. cbn [pcs pvs] in *. unfold to_matrix in Hm. cbn [pcs pvs] in Hm.
  unfold point_to_index. cbn [pcs pvs]. destruct l as [|p0 l]; [destruct Hin|]. destruct p0 as [[x0 y0] z0].
  unfold pmin3, pmax3 in *.
  pose proof (lmin_map (fun c : Z * Z * Z => fst (fst c)) (x0, y0, z0) l) as [_ Lx].
  pose proof (lmax_map (fun c : Z * Z * Z => fst (fst c)) (x0, y0, z0) l) as [_ Ux].
  pose proof (lmin_map (fun c : Z * Z * Z => snd (fst c)) (x0, y0, z0) l) as [_ Ly].
  pose proof (lmax_map (fun c : Z * Z * Z => snd (fst c)) (x0, y0, z0) l) as [_ Uy].
  pose proof (lmin_map (fun c : Z * Z * Z => snd c) (x0, y0, z0) l) as [_ Lz].
  pose proof (lmax_map (fun c : Z * Z * Z => snd c) (x0, y0, z0) l) as [_ Uz].
  specialize (Lx _ Hin). specialize (Ux _ Hin). specialize (Ly _ Hin). specialize (Uy _ Hin). specialize (Lz _ Hin). specialize (Uz _ Hin).
  cbn [fst snd] in *. change (map (fun c : Z * Z * Z => snd c) l) with (map snd l) in *.
  set (mx := lmin x0 _) in *. set (Mx := lmax x0 _) in *.
  set (my := lmin y0 _) in *. set (My := lmax y0 _) in *.
  set (mz := lmin z0 _) in *. set (Mz := lmax z0 _) in *.
  match type of Hm with (if ?b then _ else _) = _ => destruct b; [|discriminate] end.
  injection Hm as <-. cbn [vorg vsz fst snd] in *. injection E as E1 E2 E3.
  assert (Hok : forall lo hi t, lo <= t -> t <= hi -> (lo - v - 1000 <=? t) && (t <=? hi + v + 1000) = true)
    by (intros; rewrite andb_true_iff, !Z.leb_le; lia).
  rewrite !Hok by assumption. cbn [andb]. f_equal.
  assert (Hd : forall t m i, t = m + i * v -> (t - (m - v)) / v = i + 1).
  { intros t m0 i0 ->. replace (m0 + i0 * v - (m0 - v)) with ((i0 + 1) * v) by ring. apply Z.div_mul. lia. }
  rewrite (Hd _ _ _ E1), (Hd _ _ _ E2), (Hd _ _ _ E3). reflexivity.
Qed.

(** * layers *)
Lemma cube_full_spec m x y z n : cube_full m (x, y, z) n = true <->
  forall i j k, x - n <= i <= x + n -> y - n <= j <= y + n -> z - n <= k <= z + n -> at3 m (i, j, k) = true.
Proof.
  unfold cube_full. rewrite forallb_forall. split.
  - intros H i j k Hi Hj Hk. specialize (H i (proj2 (in_zrange (x - n) (x + n + 1) i) ltac:(lia))). rewrite forallb_forall in H.
    specialize (H j (proj2 (in_zrange (y - n) (y + n + 1) j) ltac:(lia))). rewrite forallb_forall in H. apply H. apply in_zrange. lia.
  - intros H i Hi. apply forallb_forall. intros j Hj. apply forallb_forall. intros k Hk.
    apply in_zrange in Hi, Hj, Hk. apply H; lia.
Qed.


Lemma layers_loop_ok m c fuel : forall count, 1 <= count ->
  (forall d, in_cube c (count - 1) d -> set3 m d) ->
  (Z.to_nat (dimx m + 1 - count) < fuel)%nat ->
  exists n, layers_loop fuel m c count = Ok n /\ 0 <= n /\
    forall k, 0 <= k -> (k <= n <-> forall d, in_cube c k d -> set3 m d).
Proof.
  destruct c as [[x y] z].
  induction fuel as [|fuel IH]; intros count H1 Hc Hf; [lia|]. cbn [layers_loop].
  assert (Hstop : ~ (forall d, in_cube (x, y, z) count d -> set3 m d) ->
     exists n, @Ok Z (count - 1) = Ok n /\ 0 <= n /\ forall k, 0 <= k -> (k <= n <-> forall d, in_cube (x, y, z) k d -> set3 m d)).
  { intros Hn. exists (count - 1). split; [reflexivity|]. split; [lia|]. intros k Hk. split.
    - intros Hle d Hd. apply Hc. unfold in_cube in *. lia.
    - intros Hall. destruct (Z.le_gt_cases k (count - 1)) as [G|G]; [exact G|]. exfalso. apply Hn. intros d Hd. apply Hall. unfold in_cube in *. lia. }
  match goal with |- context [if ?b then _ else _] => destruct b eqn:Er end.
  - rewrite !andb_true_iff, !Z.leb_le, !Z.ltb_lt in Er.
    destruct (cube_full m (x, y, z) count) eqn:Ef.
    + pose proof (proj1 (cube_full_spec m x y z count) Ef) as Hfull. apply IH; [lia| |lia].
      replace (count + 1 - 1) with count by lia. intros [[i j] k] Hd. unfold in_cube in Hd. cbn [fst snd] in Hd.
      split; [unfold cell3, In3; cbn [fst snd]; lia|]. apply Hfull; lia.
    + apply Hstop. intros Hall. assert (cube_full m (x, y, z) count = true); [|congruence].
      apply cube_full_spec. intros i j k Hi Hj Hk. apply Hall. unfold in_cube. cbn [fst snd]. lia.
  - apply Hstop. intros Hall. rewrite !andb_false_iff in Er.
    pose proof (Hall (x - count, y - count, z - count) ltac:(unfold in_cube; cbn [fst snd]; lia)) as [A _].
    pose proof (Hall (x + count, y + count, z + count) ltac:(unfold in_cube; cbn [fst snd]; lia)) as [B _].
    unfold cell3, In3 in A, B. cbn [fst snd] in A, B. rewrite !Z.leb_gt, !Z.ltb_ge in Er. lia.
Qed.

Lemma layers_cell_ok m c : cell3 m c ->
  exists n, layers_cell m c = Ok n /\
    (at3 m c = false -> n = 0) /\
    (at3 m c = true -> 0 <= n /\ forall k, 0 <= k -> (k <= n <-> forall d, in_cube c k d -> set3 m d)).
Proof.
  intros Hc. unfold layers_cell. destruct (at3 m c) eqn:E; cbn [negb].
  - destruct (layers_loop_ok m c (Z.to_nat (dimx m + 2)) 1) as (n & H1 & H2 & H3); [lia| |destruct c as [[x y] z]; unfold cell3, In3 in Hc; cbn [fst snd] in Hc; lia|].
    + intros d Hd. assert (d = c); [|subst; split; assumption].
      destruct d as [[i j] k], c as [[x y] z]. unfold in_cube in Hd. cbn [fst snd] in Hd. f_equal; [f_equal|]; lia.
    + exists n. split; [exact H1|]. split; [congruence|]. intros _. split; assumption.
  - exists 0. split; [reflexivity|]. split; [reflexivity|congruence].
Qed.
