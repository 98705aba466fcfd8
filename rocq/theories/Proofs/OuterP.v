From Verif.Model Require Import Base FloodFill VoxelMatrix.
From Verif.Spec Require Import GridSpec VoxelSpec.
From Verif.Proofs Require Import FloodFillP.
From Coq Require Import Lia.
Open Scope Z_scope.

Lemma path_trans {cell} (adj : cell -> cell -> Prop) P (a b c : cell) :
  path adj P a b -> path adj P b c -> path adj P a c.
Proof.
  intros H1 H2. induction H2 as [b Hb|b d e Hp IH Hadj He]; [exact H1|].
  eapply path_step; [exact (IH H1)|exact Hadj|exact He].
Qed.

Lemma path_cons {cell} (adj : cell -> cell -> Prop) (P : cell -> Prop) (a b c : cell) :
  P a -> adj a b -> path adj P b c -> path adj P a c.
Proof.
  intros Ha Hab H. eapply path_trans; [|exact H]. eapply path_step; [apply path_here; exact Ha|exact Hab|].
  exact (path_start _ _ _ _ H).
Qed.

Lemma path_sym {cell} (adj : cell -> cell -> Prop) P (a b : cell) :
  (forall x y, adj x y -> adj y x) -> path adj P a b -> path adj P b a.
Proof.
  intros Hs H. induction H as [c Hc|c d e Hp IH Hadj He]; [apply path_here; exact Hc|].
  eapply path_cons; [exact He|apply Hs; exact Hadj|exact IH].
Qed.

Lemma path_mono {cell} (adj : cell -> cell -> Prop) (P Q : cell -> Prop) (a b : cell) :
  (forall c, P c -> Q c) -> path adj P a b -> path adj Q a b.
Proof. intros H Hp. induction Hp; [apply path_here; auto|eapply path_step; eauto]. Qed.

(** A family of cells indexed by 0..n with consecutive ones adjacent. *)
Lemma path_line {cell} (adj : cell -> cell -> Prop) (P : cell -> Prop) (f : Z -> cell) n :
  0 <= n -> (forall t, 0 <= t -> adj (f t) (f (t + 1))) -> (forall t, 0 <= t <= n -> P (f t)) ->
  path adj P (f 0) (f n).
Proof.
  intros Hn Hadj. revert n Hn. refine (natlike_ind _ _ _).
  - intros H. apply path_here. apply H. lia.
  - intros n Hn IH H. unfold Z.succ in *. eapply path_step.
    + apply IH. intros t Ht. apply H. lia.
    + apply Hadj. exact Hn.
    + apply H. lia.
Qed.

Lemma adj3_sym c d : adj3 c d -> adj3 d c.
Proof. unfold adj3. lia. Qed.
Lemma adj2_sym c d : adj2 c d -> adj2 d c.
Proof. unfold adj2. lia. Qed.

Section Shell3.
  Variables a b d : Z.
  Hypothesis (Ha : 2 <= a) (Hb : 2 <= b) (Hd : 2 <= d).
  Definition onshell3 (c : Z * Z * Z) : Prop :=
    In3 a b d c /\ (fst (fst c) = 0 \/ fst (fst c) = a - 1 \/ snd (fst c) = 0 \/ snd (fst c) = b - 1 \/ snd c = 0 \/ snd c = d - 1).
  Lemma shell3 c : onshell3 c -> path adj3 onshell3 (0, 0, 0) c.
  Proof.
    destruct c as [[x y] z]. intros [(Hx & Hy & Hz) Hs]. cbn [fst snd] in *.
    assert (LX : forall x0 y0 z0, 0 <= x0 -> (forall t, 0 <= t <= x0 -> onshell3 (t, y0, z0)) -> path adj3 onshell3 (0, y0, z0) (x0, y0, z0)).
    { intros x0 y0 z0 H0 HP. apply (path_line adj3 onshell3 (fun t => (t, y0, z0))); [exact H0| |exact HP].
      intros t Ht. unfold adj3. cbn [fst snd]. lia. }
    assert (LY : forall x0 y0 z0, 0 <= y0 -> (forall t, 0 <= t <= y0 -> onshell3 (x0, t, z0)) -> path adj3 onshell3 (x0, 0, z0) (x0, y0, z0)).
    { intros x0 y0 z0 H0 HP. apply (path_line adj3 onshell3 (fun t => (x0, t, z0))); [exact H0| |exact HP].
      intros t Ht. unfold adj3. cbn [fst snd]. lia. }
    assert (LZ : forall x0 y0 z0, 0 <= z0 -> (forall t, 0 <= t <= z0 -> onshell3 (x0, y0, t)) -> path adj3 onshell3 (x0, y0, 0) (x0, y0, z0)).
    { intros x0 y0 z0 H0 HP. apply (path_line adj3 onshell3 (fun t => (x0, y0, t))); [exact H0| |exact HP].
      intros t Ht. unfold adj3. cbn [fst snd]. lia. }
    assert (C : (x = 0 \/ x = a - 1) \/ (y = 0 \/ y = b - 1) \/ (z = 0 \/ z = d - 1)) by lia.
    destruct C as [C|[C|C]].
    - eapply path_trans; [apply (LZ 0 0 z); [lia|]|eapply path_trans; [apply (LX x 0 z); [lia|]|apply (LY x y z); [lia|]]];
        intros t Ht; unfold onshell3, In3; cbn [fst snd]; lia.
    - eapply path_trans; [apply (LZ 0 0 z); [lia|]|eapply path_trans; [apply (LY 0 y z); [lia|]|apply (LX x y z); [lia|]]];
        intros t Ht; unfold onshell3, In3; cbn [fst snd]; lia.
    - eapply path_trans; [apply (LY 0 y 0); [lia|]|eapply path_trans; [apply (LZ 0 y z); [lia|]|apply (LX x y z); [lia|]]];
        intros t Ht; unfold onshell3, In3; cbn [fst snd]; lia.
  Qed.
End Shell3.

Section Shell2.
  Variables a b : Z.
  Hypothesis (Ha : 2 <= a) (Hb : 2 <= b).
  Definition onshell2 (c : Z * Z) : Prop :=
    In2 a b c /\ (fst c = 0 \/ fst c = a - 1 \/ snd c = 0 \/ snd c = b - 1).
  Lemma shell2 c : onshell2 c -> path adj2 onshell2 (0, 0) c.
  Proof.
    destruct c as [x y]. intros [(Hx & Hy) Hs]. cbn [fst snd] in *.
    assert (LX : forall x0 y0, 0 <= x0 -> (forall t, 0 <= t <= x0 -> onshell2 (t, y0)) -> path adj2 onshell2 (0, y0) (x0, y0)).
    { intros x0 y0 H0 HP. apply (path_line adj2 onshell2 (fun t => (t, y0))); [exact H0| |exact HP].
      intros t Ht. unfold adj2. cbn [fst snd]. lia. }
    assert (LY : forall x0 y0, 0 <= y0 -> (forall t, 0 <= t <= y0 -> onshell2 (x0, t)) -> path adj2 onshell2 (x0, 0) (x0, y0)).
    { intros x0 y0 H0 HP. apply (path_line adj2 onshell2 (fun t => (x0, t))); [exact H0| |exact HP].
      intros t Ht. unfold adj2. cbn [fst snd]. lia. }
    assert (C : (x = 0 \/ x = a - 1) \/ (y = 0 \/ y = b - 1)) by lia.
    destruct C as [C|C].
    - eapply path_trans; [apply (LX x 0); [lia|]|apply (LY x y); [lia|]];
        intros t Ht; unfold onshell2, In2; cbn [fst snd]; lia.
    - eapply path_trans; [apply (LY 0 y); [lia|]|apply (LX x y); [lia|]];
        intros t Ht; unfold onshell2, In2; cbn [fst snd]; lia.
  Qed.
End Shell2.

(** clamp to [-1, n], then shift to an index of the expanded matrix *)
Definition clamp (n x : Z) : Z := Z.min (Z.max x (-1)) n + 1.
Definition clamp3 (a b d : Z) (c : Z * Z * Z) : Z * Z * Z :=
  (clamp a (fst (fst c)), clamp b (snd (fst c)), clamp d (snd c)).
Definition clamp2 (a b : Z) (c : Z * Z) : Z * Z := (clamp a (fst c), clamp b (snd c)).

Lemma clamp_lip n x y : Z.abs (clamp n x - clamp n y) <= Z.abs (x - y).
Proof. unfold clamp. lia. Qed.

Lemma not_set3_false m c : cell3 m c -> ~ set3 m c -> at3 m c = false.
Proof. intros H1 H2. destruct (at3 m c) eqn:E; [|reflexivity]. destruct H2. split; assumption. Qed.
Lemma not_set2_false m c : cell2 m c -> ~ set2 m c -> at2 m c = false.
Proof. intros H1 H2. destruct (at2 m c) eqn:E; [|reflexivity]. destruct H2. split; assumption. Qed.

Lemma cell3_dec m c : {cell3 m c} + {~ cell3 m c}.
Proof. destruct (inb3 (dimx m) (dimy m) (dimz m) c) eqn:E; [left|right]; unfold cell3; rewrite <- inb3_spec; congruence. Qed.
Lemma cell2_dec m c : {cell2 m c} + {~ cell2 m c}.
Proof. destruct (inb2 (rows m) (cols m) c) eqn:E; [left|right]; unfold cell2; rewrite <- inb2_spec; congruence. Qed.

Lemma fill_outer3_correct a : wf3 (vmat a) ->
  exists b, fill_outer3 a = Ok b /\ dimx (vmat b) = dimx (vmat a) /\ dimy (vmat b) = dimy (vmat a)
    /\ dimz (vmat b) = dimz (vmat a) /\ vorg b = vorg a /\ vsz b = vsz a /\
    forall c, cell3 (vmat a) c -> (at3 (vmat b) c = true <-> at3 (vmat a) c = true \/ open3 (vmat a) c).
Proof.
  intros (Wx & Wy & Wz). unfold fill_outer3, flood_fill3.
  destruct a as [m [[ox oy] oz] v]. cbn [vmat vorg vsz] in *.
  unfold expand3. cbn [vmat vorg vsz].
  set (E := {| dimx := dimx m + 2; dimy := dimy m + 2; dimz := dimz m + 2; at3 := _ |}).
  assert (HE0 : at3 E (0, 0, 0) = false).
  { unfold E. cbn [at3]. destruct (inb3 _ _ _ _) eqn:Ei; [|reflexivity].
    apply inb3_spec in Ei. unfold In3 in Ei. cbn [fst snd] in Ei. lia. }
  assert (Hst : In3 (dimx E) (dimy E) (dimz E) (0, 0, 0)) by (unfold E, In3; cbn [dimx dimy dimz fst snd]; lia).
  destruct (flood3_correct E (0, 0, 0) true Hst) as (r & Hr & Dx & Dy & Dz & HF).
  rewrite Hr. cbn [bind]. eexists. split; [reflexivity|]. unfold reduce3. cbn [vmat vorg vsz dimx dimy dimz at3].
  rewrite Dx, Dy, Dz. unfold E at 1 2 3. cbn [dimx dimy dimz].
  split; [lia|]. split; [lia|]. split; [lia|].
  split; [f_equal; [f_equal|]; lia|]. split; [reflexivity|].
  rewrite HE0 in HF.
  intros [[x y] z] Hc. rewrite HF.
  assert (HEc : at3 E (x + 1, y + 1, z + 1) = at3 m (x, y, z)).
  { unfold E. cbn [at3]. replace (x + 1 - 1) with x by lia. replace (y + 1 - 1) with y by lia. replace (z + 1 - 1) with z by lia.
    rewrite (proj2 (inb3_spec _ _ _ _) Hc). reflexivity. }
  rewrite HEc.
  assert (Hiff : path adj3 (fun d => In3 (dimx E) (dimy E) (dimz E) d /\ at3 E d = false) (0, 0, 0) (x + 1, y + 1, z + 1)
      <-> open3 m (x, y, z)); [|rewrite Hiff; tauto].
  split.
  - intros Hp. exists (-1, -1, -1). split; [unfold cell3, In3; cbn [fst snd]; lia|].
    assert (G : forall c e, path adj3 (fun d => In3 (dimx E) (dimy E) (dimz E) d /\ at3 E d = false) c e ->
       path adj3 (fun d => ~ set3 m d) (fst (fst c) - 1, snd (fst c) - 1, snd c - 1) (fst (fst e) - 1, snd (fst e) - 1, snd e - 1)).
    { assert (G0 : forall e, In3 (dimx E) (dimy E) (dimz E) e /\ at3 E e = false -> ~ set3 m (fst (fst e) - 1, snd (fst e) - 1, snd e - 1)).
      { intros [[ex ey] ez] [_ He] [Hs1 Hs2]. cbn [fst snd] in *. unfold E in He. cbn [at3] in He.
        rewrite (proj2 (inb3_spec _ _ _ _) Hs1) in He. congruence. }
      intros c e H. induction H as [c Hc0|c d e H IH Hadj He].
      - apply path_here. apply G0. exact Hc0.
      - eapply path_step; [exact IH| |apply G0; exact He]. unfold adj3 in *. cbn [fst snd]. lia. }
    specialize (G _ _ Hp). cbn [fst snd] in G.
    replace (x + 1 - 1) with x in G by lia. replace (y + 1 - 1) with y in G by lia. replace (z + 1 - 1) with z in G by lia.
    exact G.
  - intros (o & Ho & Hp).
    set (Q := fun d => In3 (dimx E) (dimy E) (dimz E) d /\ at3 E d = false).
    assert (Hsh : forall e, onshell3 (dimx E) (dimy E) (dimz E) e -> Q e).
    { intros [[ex ey] ez] [He1 He2]. split; [exact He1|]. unfold E. cbn [at3]. unfold E in He1, He2. cbn [dimx dimy dimz] in He1, He2.
      unfold In3 in He1. cbn [fst snd] in He1, He2. destruct (inb3 (dimx m) (dimy m) (dimz m) (ex - 1, ey - 1, ez - 1)) eqn:Ei; [|reflexivity].
      apply inb3_spec in Ei. unfold In3 in Ei. cbn [fst snd] in Ei. lia. }
    assert (HQ : forall e, ~ set3 m e -> Q (clamp3 (dimx m) (dimy m) (dimz m) e)).
    { intros [[ex ey] ez] He. unfold Q, clamp3, clamp. cbn [fst snd]. split.
      - unfold E, In3; cbn [dimx dimy dimz fst snd]; lia.
      - unfold E. cbn [at3]. match goal with |- (if ?b then _ else _) = _ => destruct b eqn:Ei end; [|reflexivity].
        assert (Hce := proj1 (inb3_spec _ _ _ _) Ei). unfold In3 in Hce. cbn [fst snd] in Hce.
        replace (Z.min (Z.max ex (-1)) (dimx m) + 1 - 1) with ex in * by lia.
        replace (Z.min (Z.max ey (-1)) (dimy m) + 1 - 1) with ey in * by lia.
        replace (Z.min (Z.max ez (-1)) (dimz m) + 1 - 1) with ez in * by lia.
        apply not_set3_false; [|exact He]. apply inb3_spec. exact Ei. }
    assert (Hbase : path adj3 Q (0, 0, 0) (clamp3 (dimx m) (dimy m) (dimz m) o)).
    { eapply path_mono; [exact Hsh|]. apply shell3; [unfold E; cbn [dimx]; lia|unfold E; cbn [dimy]; lia|unfold E; cbn [dimz]; lia|].
      destruct o as [[px py] pz]. unfold cell3, In3 in Ho. cbn [fst snd] in Ho.
      unfold onshell3, In3, clamp3, clamp, E. cbn [dimx dimy dimz fst snd]. lia. }
    assert (G : path adj3 Q (0, 0, 0) (clamp3 (dimx m) (dimy m) (dimz m) (x, y, z))).
    { clear Hc HEc Ho. induction Hp as [c Hc|c d e Hp IH Hadj He]; [exact Hbase|].
      specialize (IH Hbase).
      destruct (eqb3 (clamp3 (dimx m) (dimy m) (dimz m) d) (clamp3 (dimx m) (dimy m) (dimz m) e)) eqn:Eq.
      - apply eqb3_spec in Eq. rewrite <- Eq. exact IH.
      - eapply path_step; [exact IH| |apply HQ; exact He].
        assert (Hne : clamp3 (dimx m) (dimy m) (dimz m) d <> clamp3 (dimx m) (dimy m) (dimz m) e)
          by (intros G; apply (proj2 (eqb3_spec _ _)) in G; congruence).
        destruct d as [[d1 d2] d3], e as [[e1 e2] e3]. unfold clamp3 in *. unfold adj3 in *. cbn [fst snd] in *.
        assert (C : clamp (dimx m) d1 <> clamp (dimx m) e1 \/ clamp (dimy m) d2 <> clamp (dimy m) e2 \/ clamp (dimz m) d3 <> clamp (dimz m) e3).
        { destruct (Z.eq_dec (clamp (dimx m) d1) (clamp (dimx m) e1)) as [E1|]; [|tauto].
          destruct (Z.eq_dec (clamp (dimy m) d2) (clamp (dimy m) e2)) as [E2|]; [|tauto].
          destruct (Z.eq_dec (clamp (dimz m) d3) (clamp (dimz m) e3)) as [E3|]; [|tauto]. exfalso; apply Hne; rewrite E1, E2, E3; reflexivity. }
        pose proof (clamp_lip (dimx m) d1 e1) as L1. pose proof (clamp_lip (dimy m) d2 e2) as L2. pose proof (clamp_lip (dimz m) d3 e3) as L3.
        clear -C L1 L2 L3 Hadj. lia. }
    unfold cell3, In3 in Hc. cbn [fst snd] in Hc.
    unfold clamp3, clamp in G. cbn [fst snd] in G.
    replace (Z.min (Z.max x (-1)) (dimx m) + 1) with (x + 1) in G by lia.
    replace (Z.min (Z.max y (-1)) (dimy m) + 1) with (y + 1) in G by lia.
    replace (Z.min (Z.max z (-1)) (dimz m) + 1) with (z + 1) in G by lia.
    exact G.
Qed.

Lemma fill_outer2_correct a : wf2 (pmat a) ->
  exists b, fill_outer2 a = Ok b /\ rows (pmat b) = rows (pmat a) /\ cols (pmat b) = cols (pmat a) /\ porg b = porg a /\ psz b = psz a /\
    forall c, cell2 (pmat a) c -> (at2 (pmat b) c = true <-> at2 (pmat a) c = true \/ open2 (pmat a) c).
Proof.
  intros (Wx & Wy). unfold fill_outer2, flood_fill2.
  destruct a as [m [ox oy] v]. cbn [pmat porg psz] in *.
  unfold expand2. cbn [pmat porg psz].
  set (E := {| rows := rows m + 2; cols := cols m + 2; at2 := _ |}).
  assert (HE0 : at2 E (0, 0) = false).
  { unfold E. cbn [at2]. destruct (inb2 _ _ _) eqn:Ei; [|reflexivity].
    apply inb2_spec in Ei. unfold In2 in Ei. cbn [fst snd] in Ei. lia. }
  assert (Hst : In2 (rows E) (cols E) (0, 0)) by (unfold E, In2; cbn [rows cols fst snd]; lia).
  destruct (flood2_correct E (0, 0) true Hst) as (r & Hr & Dx & Dy & HF).
  rewrite Hr. cbn [bind]. eexists. split; [reflexivity|]. unfold reduce2. cbn [pmat porg psz rows cols at2].
  rewrite Dx, Dy. unfold E at 1 2. cbn [rows cols].
  split; [lia|]. split; [lia|].
  split; [f_equal; lia|]. split; [reflexivity|].
  rewrite HE0 in HF.
  intros [x y] Hc. rewrite HF.
  assert (HEc : at2 E (x + 1, y + 1) = at2 m (x, y)).
  { unfold E. cbn [at2]. replace (x + 1 - 1) with x by lia. replace (y + 1 - 1) with y by lia. 
    rewrite (proj2 (inb2_spec _ _ _) Hc). reflexivity. }
  rewrite HEc.
  assert (Hiff : path adj2 (fun d => In2 (rows E) (cols E) d /\ at2 E d = false) (0, 0) (x + 1, y + 1)
      <-> open2 m (x, y)); [|rewrite Hiff; tauto].
  split.
  - intros Hp. exists (-1, -1). split; [unfold cell2, In2; cbn [fst snd]; lia|].
    assert (G : forall c e, path adj2 (fun d => In2 (rows E) (cols E) d /\ at2 E d = false) c e ->
       path adj2 (fun d => ~ set2 m d) (fst c - 1, snd c - 1) (fst e - 1, snd e - 1)).
    { assert (G0 : forall e, In2 (rows E) (cols E) e /\ at2 E e = false -> ~ set2 m (fst e - 1, snd e - 1)).
      { intros [ex ey] [_ He] [Hs1 Hs2]. cbn [fst snd] in *. unfold E in He. cbn [at2] in He.
        rewrite (proj2 (inb2_spec _ _ _) Hs1) in He. congruence. }
      intros c e H. induction H as [c Hc0|c d e H IH Hadj He].
      - apply path_here. apply G0. exact Hc0.
      - eapply path_step; [exact IH| |apply G0; exact He]. unfold adj2 in *. cbn [fst snd]. lia. }
    specialize (G _ _ Hp). cbn [fst snd] in G.
    replace (x + 1 - 1) with x in G by lia. replace (y + 1 - 1) with y in G by lia.
    exact G.
  - intros (o & Ho & Hp).
    set (Q := fun d => In2 (rows E) (cols E) d /\ at2 E d = false).
    assert (Hsh : forall e, onshell2 (rows E) (cols E) e -> Q e).
    { intros [ex ey] [He1 He2]. split; [exact He1|]. unfold E. cbn [at2]. unfold E in He1, He2. cbn [rows cols] in He1, He2.
      unfold In2 in He1. cbn [fst snd] in He1, He2. destruct (inb2 (rows m) (cols m) (ex - 1, ey - 1)) eqn:Ei; [|reflexivity].
      apply inb2_spec in Ei. unfold In2 in Ei. cbn [fst snd] in Ei. lia. }
    assert (HQ : forall e, ~ set2 m e -> Q (clamp2 (rows m) (cols m) e)).
    { intros [ex ey] He. unfold Q, clamp2, clamp. cbn [fst snd]. split.
      - unfold E, In2; cbn [rows cols fst snd]; lia.
      - unfold E. cbn [at2]. match goal with |- (if ?b then _ else _) = _ => destruct b eqn:Ei end; [|reflexivity].
        assert (Hce := proj1 (inb2_spec _ _ _) Ei). unfold In2 in Hce. cbn [fst snd] in Hce.
        replace (Z.min (Z.max ex (-1)) (rows m) + 1 - 1) with ex in * by lia.
        replace (Z.min (Z.max ey (-1)) (cols m) + 1 - 1) with ey in * by lia.
        apply not_set2_false; [|exact He]. apply inb2_spec. exact Ei. }
    assert (Hbase : path adj2 Q (0, 0) (clamp2 (rows m) (cols m) o)).
    { eapply path_mono; [exact Hsh|]. apply shell2; [unfold E; cbn [rows]; lia|unfold E; cbn [cols]; lia|].
      destruct o as [px py]. unfold cell2, In2 in Ho. cbn [fst snd] in Ho.
      unfold onshell2, In2, clamp2, clamp, E. cbn [rows cols fst snd]. lia. }
    assert (G : path adj2 Q (0, 0) (clamp2 (rows m) (cols m) (x, y))).
    { clear Hc HEc Ho. induction Hp as [c Hc|c d e Hp IH Hadj He]; [exact Hbase|].
      specialize (IH Hbase).
      destruct (eqb2 (clamp2 (rows m) (cols m) d) (clamp2 (rows m) (cols m) e)) eqn:Eq.
      - apply eqb2_spec in Eq. rewrite <- Eq. exact IH.
      - eapply path_step; [exact IH| |apply HQ; exact He].
        assert (Hne : clamp2 (rows m) (cols m) d <> clamp2 (rows m) (cols m) e)
          by (intros G; apply (proj2 (eqb2_spec _ _)) in G; congruence).
        destruct d as [d1 d2], e as [e1 e2]. unfold clamp2 in *. unfold adj2 in *. cbn [fst snd] in *.
        assert (C : clamp (rows m) d1 <> clamp (rows m) e1 \/ clamp (cols m) d2 <> clamp (cols m) e2).
        { destruct (Z.eq_dec (clamp (rows m) d1) (clamp (rows m) e1)) as [E1|]; [|tauto].
          destruct (Z.eq_dec (clamp (cols m) d2) (clamp (cols m) e2)) as [E2|]; [|tauto]. exfalso; apply Hne; rewrite E1, E2; reflexivity. }
        pose proof (clamp_lip (rows m) d1 e1) as L1. pose proof (clamp_lip (cols m) d2 e2) as L2.
        clear -C L1 L2 Hadj. lia. }
    unfold cell2, In2 in Hc. cbn [fst snd] in Hc.
    unfold clamp2, clamp in G. cbn [fst snd] in G.
    replace (Z.min (Z.max x (-1)) (rows m) + 1) with (x + 1) in G by lia.
    replace (Z.min (Z.max y (-1)) (cols m) + 1) with (y + 1) in G by lia.
    exact G.
Qed.
