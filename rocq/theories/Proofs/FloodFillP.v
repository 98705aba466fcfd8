From Verif.Model Require Import Base FloodFill.
From Verif.Spec Require Import GridSpec.
From Coq Require Import Lia.
Open Scope Z_scope.

Lemma in_zrange a b x : In x (zrange a b) <-> a <= x < b.
Proof.
  unfold zrange. rewrite in_map_iff. split.
  - intros (i & <- & Hi). apply in_seq in Hi. lia.
  - intros H. exists (Z.to_nat (x - a)). split; [lia|]. apply in_seq. lia.
Qed.

Lemma zrange_length a b : length (zrange a b) = Z.to_nat (b - a).
Proof. unfold zrange. rewrite map_length, seq_length. reflexivity. Qed.

Lemma in_cells3 a b c t : In t (cells3 a b c) <-> In3 a b c t.
Proof.
  destruct t as [[x y] z]. unfold cells3, In3. cbn [fst snd]. rewrite in_flat_map. split.
  - intros (x' & Hx & H). apply in_flat_map in H. destruct H as (y' & Hy & H).
    apply in_map_iff in H. destruct H as (z' & E & Hz). injection E as -> -> ->.
    rewrite in_zrange in *. lia.
  - intros (Hx & Hy & Hz). exists x. rewrite in_zrange. split; [lia|].
    apply in_flat_map. exists y. rewrite in_zrange. split; [lia|].
    apply in_map_iff. exists z. rewrite in_zrange. split; [reflexivity|lia].
Qed.

Lemma in_cells2 a b t : In t (cells2 a b) <-> In2 a b t.
Proof.
  destruct t as [x y]. unfold cells2, In2. cbn [fst snd]. rewrite in_flat_map. split.
  - intros (x' & Hx & H). apply in_map_iff in H. destruct H as (z' & E & Hz). injection E as -> ->.
    rewrite in_zrange in *. lia.
  - intros (Hx & Hy). exists x. rewrite in_zrange. split; [lia|].
    apply in_map_iff. exists y. rewrite in_zrange. split; [reflexivity|lia].
Qed.

Lemma flat_map_length_const {A B} (f : A -> list B) k l :
  (forall x, In x l -> length (f x) = k) -> length (flat_map f l) = (length l * k)%nat.
Proof.
  induction l as [|x l IH]; intros H; [reflexivity|].
  cbn [flat_map length]. rewrite app_length, IH, (H x); [lia|left; reflexivity|].
  intros y Hy. apply H. right. exact Hy.
Qed.

Lemma cells2_length a b : 0 <= a -> 0 <= b -> length (cells2 a b) = Z.to_nat (a * b).
Proof.
  intros Ha Hb. unfold cells2. rewrite (flat_map_length_const _ (Z.to_nat b)).
  - rewrite zrange_length. nia.
  - intros x _. rewrite map_length, zrange_length. lia.
Qed.

Lemma cells3_length a b c : 0 <= a -> 0 <= b -> 0 <= c -> length (cells3 a b c) = Z.to_nat (a * b * c).
Proof.
  intros Ha Hb Hc. unfold cells3. rewrite (flat_map_length_const _ (Z.to_nat (b * c))).
  - rewrite zrange_length. nia.
  - intros x _. rewrite (flat_map_length_const _ (Z.to_nat c)).
    + rewrite zrange_length. nia.
    + intros y _. rewrite map_length, zrange_length. lia.
Qed.

Lemma filter_len {A} (f : A -> bool) l : (length (filter f l) <= length l)%nat.
Proof. induction l as [|x l IH]; cbn [filter length]; [lia|]. destruct (f x); cbn [length]; lia. Qed.

Lemma path_iff {cell} (adj adj' : cell -> cell -> Prop) (P Q : cell -> Prop) a b :
  (forall c d, adj c d <-> adj' c d) -> (forall c, P c <-> Q c) -> path adj P a b <-> path adj' Q a b.
Proof.
  intros Ha HP. split; induction 1.
  - apply path_here. apply HP; assumption.
  - eapply path_step; [eassumption|apply Ha; eassumption|apply HP; assumption].
  - apply path_here. apply HP; assumption.
  - eapply path_step; [eassumption|apply Ha; eassumption|apply HP; assumption].
Qed.

Lemma path_end {cell} (adj : cell -> cell -> Prop) P (a b : cell) : path adj P a b -> P b.
Proof. destruct 1; assumption. Qed.
Lemma path_start {cell} (adj : cell -> cell -> Prop) P (a b : cell) : path adj P a b -> P a.
Proof. induction 1; assumption. Qed.

Section Loop.
  Context {cell : Type}.
  Variable ceqb : cell -> cell -> bool.
  Variable inb : cell -> bool.
  Variable nbrs : cell -> list cell.
  Hypothesis ceqb_spec : forall c d, ceqb c d = true <-> c = d.
  Variable all : list cell.
  Hypothesis all_inb : forall c, inb c = true -> In c all.
  Variable k : nat.
  Hypothesis nbrs_k : forall c, (length (nbrs c) <= k)%nat.

  Variable m0 : cell -> bool.
  Variable old : bool.
  Variable start : cell.
  Let fill := negb old.
  Let adj c d := In d (nbrs c).
  Let comp c := path adj (fun d => inb d = true /\ m0 d = old) start c.

  Notation push := (push_nbrs inb nbrs).

  Definition pushed (m : cell -> bool) (c : cell) : list cell :=
    rev (filter (fun n => inb n && Bool.eqb (m n) old) (nbrs c)).

  Lemma push_eq m c st : push m old c st = pushed m c ++ st.
  Proof.
    unfold push_nbrs, pushed. revert st.
    induction (nbrs c) as [|n l IH]; intros st; [reflexivity|].
    cbn [fold_left filter]. rewrite IH.
    destruct (inb n && Bool.eqb (m n) old); [|reflexivity].
    cbn [rev]. rewrite <- app_assoc. reflexivity.
  Qed.

  Lemma in_pushed m c n : In n (pushed m c) <-> In n (nbrs c) /\ inb n = true /\ m n = old.
  Proof.
    unfold pushed. rewrite <- in_rev, filter_In, andb_true_iff, Bool.eqb_true_iff. tauto.
  Qed.

  Lemma pushed_length m c : (length (pushed m c) <= k)%nat.
  Proof.
    unfold pushed. rewrite rev_length. specialize (nbrs_k c).
    assert (H : forall (f : cell -> bool) l, (length (filter f l) <= length l)%nat).
    { intros f l. induction l as [|x l IH]; cbn [filter length]; [lia|]. destruct (f x); cbn [length]; lia. }
    specialize (H (fun n => inb n && Bool.eqb (m n) old) (nbrs c)). lia.
  Qed.

  Definition cnt (m : cell -> bool) : nat := length (filter (fun c => Bool.eqb (m c) old) all).

  Lemma upd_same (m : cell -> bool) c v : upd ceqb m c v c = v.
  Proof. unfold upd. destruct (ceqb c c) eqn:E; [reflexivity|]. assert (ceqb c c = true) by (apply ceqb_spec; reflexivity). congruence. Qed.
  Lemma upd_other (m : cell -> bool) c v d : d <> c -> upd ceqb m c v d = m d.
  Proof. unfold upd. intros H. destruct (ceqb d c) eqn:E; [|reflexivity]. apply ceqb_spec in E. contradiction. Qed.

  Lemma fill_neq_old : Bool.eqb fill old = false.
  Proof. unfold fill. destruct old; reflexivity. Qed.

  Lemma fill_old : fill <> old.
  Proof. intros H. pose proof fill_neq_old as G. rewrite H, Bool.eqb_reflx in G. discriminate. Qed.

  Lemma filt_le m c l : (length (filter (fun x => Bool.eqb (upd ceqb m c fill x) old) l)
                 <= length (filter (fun x => Bool.eqb (m x) old) l))%nat.
  Proof.
    induction l as [|d l IH]; [cbn; lia|].
    cbn [filter]. destruct (Bool.eqb (upd ceqb m c fill d) old) eqn:E.
    - unfold upd in E. destruct (ceqb d c); [rewrite fill_neq_old in E; discriminate|].
      rewrite E. cbn [length]. lia.
    - destruct (Bool.eqb (m d) old); cbn [length]; lia.
  Qed.

  Lemma cnt_le m c : (cnt (upd ceqb m c fill) <= cnt m)%nat.
  Proof. apply filt_le. Qed.

  Lemma filt_lt m c l : In c l -> m c = old ->
    (length (filter (fun x => Bool.eqb (upd ceqb m c fill x) old) l)
                 < length (filter (fun x => Bool.eqb (m x) old) l))%nat.
  Proof.
    intros Hin Hm. induction l as [|d l IH]; [destruct Hin|].
    cbn [filter]. destruct (ceqb d c) eqn:E.
    - apply ceqb_spec in E. subst d. rewrite Hm, Bool.eqb_reflx, upd_same, fill_neq_old.
      cbn [length]. pose proof (filt_le m c l). lia.
    - destruct Hin as [->|Hin].
      + assert (ceqb c c = true) by (apply ceqb_spec; reflexivity). congruence.
      + assert (Eu : upd ceqb m c fill d = m d) by (unfold upd; rewrite E; reflexivity).
        rewrite Eu. specialize (IH Hin). destruct (Bool.eqb (m d) old); cbn [length]; lia.
  Qed.

  Lemma cnt_lt m c : In c all -> m c = old -> (cnt (upd ceqb m c fill) < cnt m)%nat.
  Proof. apply filt_lt. Qed.

  Definition phase (m : cell -> bool) (st : list cell) : nat :=
    match st with [] => 0 | c :: _ => if Bool.eqb (m c) old then 0 else k end.
  Definition meas m st : nat := (2 * k * cnt m + length st + phase m st)%nat.

  Record inv (m : cell -> bool) (st : list cell) : Prop := {
    i_stack : forall c, In c st -> comp c;
    i_chg : forall c, m c = m0 c \/ (m c = fill /\ comp c);
    i_front : forall c n, comp c -> m c = fill -> In n (nbrs c) -> inb n = true -> m0 n = old ->
              m n = fill \/ In n st;
    i_start : m start = fill \/ In start st
  }.

  Lemma comp_inb c : comp c -> inb c = true /\ m0 c = old.
  Proof. intros H. destruct H; assumption. Qed.

  Lemma not_old v : v <> old <-> v = fill.
  Proof. unfold fill. destruct v, old; cbn; intuition congruence. Qed.

  Lemma loop_correct fuel : forall m st,
    inv m st -> (meas m st < fuel)%nat ->
    exists r, flood_loop ceqb inb nbrs fuel m st old fill = Ok r /\
      (forall c, comp c -> r c = fill) /\ (forall c, r c = m0 c \/ comp c).
  Proof.
    induction fuel as [|fuel IH]; intros m st Hinv Hf; [lia|].
    cbn [flood_loop]. destruct st as [|c st].
    - exists m. split; [reflexivity|].
      assert (Hc : forall c, comp c -> m c = fill).
      { assert (G : forall a c, path adj (fun d => inb d = true /\ m0 d = old) a c ->
                     comp a -> m a = fill -> comp c /\ m c = fill).
        { intros a c H. induction H as [c0 H0|c0 d e H IHp Hadj He]; intros Ha Hm; [split; assumption|].
          destruct (IHp Ha Hm) as [Hd Hmd]. split.
          - unfold comp. eapply path_step; [exact Hd|exact Hadj|exact He].
          - destruct (i_front _ _ Hinv d e Hd Hmd Hadj (proj1 He) (proj2 He)) as [G|[]]. exact G. }
        intros c H. destruct (i_start _ _ Hinv) as [Hs|[]].
        apply (G start c H); [|exact Hs]. unfold comp. apply path_here. exact (path_start _ _ _ _ H). }
      split; [exact Hc|]. intros c. destruct (i_chg _ _ Hinv c) as [G|[_ G]]; [left; exact G|right; exact G].
    - rewrite push_eq. set (m' := upd ceqb m c fill).
      assert (Hc : comp c) by (apply (i_stack _ _ Hinv); left; reflexivity).
      apply IH.
      + (* invariant *)
        constructor.
        * intros d Hd. apply in_app_iff in Hd. destruct Hd as [Hd|Hd].
          -- apply in_pushed in Hd. destruct Hd as (Hn & Hb & Hm).
             eapply path_step; [exact Hc|exact Hn|]. split; [exact Hb|].
             assert (Hdc : d <> c).
             { intros ->. unfold m' in Hm. rewrite upd_same in Hm. exact (fill_old Hm). }
             unfold m' in Hm. rewrite upd_other in Hm by exact Hdc.
             destruct (i_chg _ _ Hinv d) as [G|[G _]]; [congruence|].
             rewrite G in Hm. destruct (fill_old Hm).
          -- apply (i_stack _ _ Hinv). right. exact Hd.
        * intros d. unfold m', upd. destruct (ceqb d c) eqn:E.
          -- apply ceqb_spec in E. subst d. right. split; [reflexivity|exact Hc].
          -- apply (i_chg _ _ Hinv).
        * intros d n Hd Hmd Hn Hb Hn0.
          destruct (ceqb n c) eqn:En.
          { apply ceqb_spec in En. subst n. left. unfold m'. apply upd_same. }
          assert (Hnc : n <> c) by (intros ->; assert (ceqb c c = true) by (apply ceqb_spec; reflexivity); congruence).
          unfold m'. rewrite upd_other by exact Hnc.
          destruct (ceqb d c) eqn:Ed.
          -- apply ceqb_spec in Ed. subst d.
             destruct (Bool.eqb (m n) old) eqn:Ev.
             ++ apply Bool.eqb_prop in Ev. right. apply in_app_iff. left. apply in_pushed.
                split; [exact Hn|]. split; [exact Hb|]. unfold m'. rewrite upd_other by exact Hnc. exact Ev.
             ++ left. apply not_old. intros G. rewrite G, Bool.eqb_reflx in Ev. discriminate.
          -- assert (Hdc : d <> c) by (intros ->; assert (ceqb c c = true) by (apply ceqb_spec; reflexivity); congruence).
             unfold m' in Hmd. rewrite upd_other in Hmd by exact Hdc.
             destruct (i_front _ _ Hinv d n Hd Hmd Hn Hb Hn0) as [G|[G|G]].
             ++ left. exact G.
             ++ subst n. contradiction.
             ++ right. apply in_app_iff. right. exact G.
        * destruct (i_start _ _ Hinv) as [G|[G|G]].
          -- left. unfold m', upd. destruct (ceqb start c); [reflexivity|exact G].
          -- subst c. left. unfold m'. apply upd_same.
          -- right. apply in_app_iff. right. exact G.
      + (* measure *)
        destruct (comp_inb c Hc) as [Hb H0].
        pose proof (pushed_length m' c) as Hl.
        unfold meas in Hf. cbn [length phase] in Hf. unfold meas. rewrite app_length.
        assert (Hph : (phase m' (pushed m' c ++ st) <= k)%nat).
        { unfold phase. destruct (pushed m' c ++ st) as [|d l]; [lia|]. destruct (Bool.eqb (m' d) old); lia. }
        destruct (Bool.eqb (m c) old) eqn:Ev.
        * apply Bool.eqb_prop in Ev. pose proof (cnt_lt m c (all_inb c Hb) Ev) as Hlt. fold m' in Hlt.
          assert (2 * k * S (cnt m') <= 2 * k * cnt m)%nat by (apply Nat.mul_le_mono_l; lia). lia.
        * pose proof (cnt_le m c) as Hle. fold m' in Hle.
          assert (2 * k * cnt m' <= 2 * k * cnt m)%nat by (apply Nat.mul_le_mono_l; lia).
          destruct (pushed m' c) as [|d l] eqn:Ep.
          -- cbn [app length] in *. lia.
          -- assert (Hd : In d (pushed m' c)) by (rewrite Ep; left; reflexivity).
             apply in_pushed in Hd. destruct Hd as (_ & _ & Hd).
             assert (phase m' ((d :: l) ++ st) = 0%nat) as ->
               by (cbn [app phase]; rewrite Hd, Bool.eqb_reflx; reflexivity).
             cbn [length] in *. lia.
  Qed.

  Lemma cnt_all m : (cnt m <= length all)%nat.
  Proof. apply filter_len. Qed.

  Lemma flood_correct fuel :
    inb start = true -> m0 start = old -> (2 * k * length all + 1 < fuel)%nat ->
    exists r, flood_loop ceqb inb nbrs fuel m0 [start] old fill = Ok r /\
      (forall c, comp c -> r c = fill) /\ (forall c, r c = m0 c \/ comp c).
  Proof.
    intros Hb H0 Hf. apply loop_correct.
    - constructor.
      + intros c [<-|[]]. apply path_here. split; assumption.
      + intros c. left. reflexivity.
      + intros c n Hc Hm. destruct (comp_inb c Hc) as [_ G]. rewrite G in Hm. destruct (fill_old (eq_sym Hm)).
      + right. left. reflexivity.
    - unfold meas. cbn [length phase]. rewrite H0, Bool.eqb_reflx.
      pose proof (cnt_all m0). assert (2 * k * cnt m0 <= 2 * k * length all)%nat by (apply Nat.mul_le_mono_l; lia). lia.
  Qed.
End Loop.

Lemma eqb2_spec c d : eqb2 c d = true <-> c = d.
Proof.
  destruct c as [x y], d as [x' y']. unfold eqb2. cbn [fst snd].
  rewrite andb_true_iff, !Z.eqb_eq. split; [intros [-> ->]; reflexivity|intros E; injection E as -> ->; auto].
Qed.
Lemma eqb3_spec c d : eqb3 c d = true <-> c = d.
Proof.
  destruct c as [p z], d as [p' z']. unfold eqb3. cbn [fst snd].
  rewrite andb_true_iff, Z.eqb_eq, eqb2_spec. split; [intros [-> ->]; reflexivity|intros E; injection E as -> ->; auto].
Qed.
Lemma inb2_spec a b c : inb2 a b c = true <-> In2 a b c.
Proof. destruct c as [x y]. unfold inb2, In2. cbn [fst snd]. rewrite !andb_true_iff, !Z.leb_le, !Z.ltb_lt. tauto. Qed.
Lemma inb3_spec a b d c : inb3 a b d c = true <-> In3 a b d c.
Proof. destruct c as [[x y] z]. unfold inb3, In3. cbn [fst snd]. rewrite !andb_true_iff, !Z.leb_le, !Z.ltb_lt. tauto. Qed.

Lemma nbrs2_adj c d : In d (nbrs2 c) <-> adj2 c d.
Proof.
  destruct c as [x y], d as [x' y']. unfold nbrs2, adj2. cbn [map In fst snd]. split.
  - intros H. repeat destruct H as [H|H]; try injection H as <- <-; try lia; try destruct H.
  - intros H.
    assert (C : (x' = x + 0 /\ y' = y + -1) \/ (x' = x + 0 /\ y' = y + 1) \/ (x' = x + -1 /\ y' = y + 0) \/ (x' = x + 1 /\ y' = y + 0)) by lia.
    intuition (subst; auto).
Qed.
Lemma nbrs3_adj c d : In d (nbrs3 c) <-> adj3 c d.
Proof.
  destruct c as [[x y] z], d as [[x' y'] z']. unfold nbrs3, adj3. cbn [map In fst snd]. split.
  - intros H. repeat destruct H as [H|H]; try injection H as <- <- <-; try lia; try destruct H.
  - intros H.
    assert (C : (x' = x + 0 /\ y' = y + -1 /\ z' = z + 0) \/ (x' = x + 0 /\ y' = y + 1 /\ z' = z + 0)
             \/ (x' = x + -1 /\ y' = y + 0 /\ z' = z + 0) \/ (x' = x + 1 /\ y' = y + 0 /\ z' = z + 0)
             \/ (x' = x + 0 /\ y' = y + 0 /\ z' = z + -1) \/ (x' = x + 0 /\ y' = y + 0 /\ z' = z + 1)) by lia.
    intuition (subst; auto 8).
Qed.

Lemma flood2_correct m start fill :
  In2 (rows m) (cols m) start ->
  exists r, flood_fill_matrix_2d m start fill = Ok r /\
    rows r = rows m /\ cols r = cols m /\
    (forall c, at2 r c = fill <-> at2 m c = fill \/ path adj2 (fun d => In2 (rows m) (cols m) d /\ at2 m d = at2 m start) start c).
Proof.
  intros Hs. unfold flood_fill_matrix_2d.
  rewrite (proj2 (inb2_spec _ _ _) Hs). cbn [negb]. unfold flood_fill_2d_core.
  destruct (Bool.eqb (at2 m start) fill) eqn:E.
  - apply Bool.eqb_prop in E. exists m. repeat (split; [reflexivity|]). intros c. split; [intros G; left; exact G|].
    intros [G|G]; [exact G|]. apply path_end in G. destruct G as [_ G]. congruence.
  - assert (Hne : at2 m start <> fill) by (intros G; rewrite G, Bool.eqb_reflx in E; discriminate).
    assert (Hf : fill = negb (at2 m start)) by (destruct fill, (at2 m start); cbn; congruence).
    unfold In2 in Hs.
    assert (Hfuel : (2 * 4 * length (cells2 (rows m) (cols m)) + 1 < Z.to_nat (8 * (rows m * cols m) + 2))%nat).
    { rewrite cells2_length by lia. assert (0 <= rows m * cols m) by nia. lia. }
    destruct (flood_correct eqb2 (inb2 (rows m) (cols m)) nbrs2 eqb2_spec (cells2 (rows m) (cols m))
      (fun c H => proj2 (in_cells2 _ _ _) (proj1 (inb2_spec _ _ _) H)) 4
      (fun c => ltac:(destruct c; cbn; lia)) (at2 m) (at2 m start) start
      _ (proj2 (inb2_spec (rows m) (cols m) start) ltac:(unfold In2; lia)) eq_refl Hfuel) as (r & Hr & H1 & H2).
    rewrite <- Hf in Hr. rewrite Hr. cbn [bind].
    eexists. split; [reflexivity|]. cbn [rows cols at2]. split; [reflexivity|]. split; [reflexivity|].
    assert (Hp : forall c, path (fun c0 d => In d (nbrs2 c0)) (fun d => inb2 (rows m) (cols m) d = true /\ at2 m d = at2 m start) start c
       <-> path adj2 (fun d => In2 (rows m) (cols m) d /\ at2 m d = at2 m start) start c).
    { intros c. apply path_iff; [apply nbrs2_adj|]. intros d. rewrite inb2_spec. reflexivity. }
    intros c. split.
    + intros G. destruct (H2 c) as [G'|G']; [left; congruence|right; apply Hp; exact G'].
    + intros [G|G].
      * destruct (H2 c) as [G'|G']; [congruence|]. rewrite Hf. apply H1. exact G'.
      * rewrite Hf. apply H1. apply Hp. exact G.
Qed.

Lemma flood3_correct m start fill :
  In3 (dimx m) (dimy m) (dimz m) start ->
  exists r, flood_fill_matrix_3d m start fill = Ok r /\
    dimx r = dimx m /\ dimy r = dimy m /\ dimz r = dimz m /\
    (forall c, at3 r c = fill <-> at3 m c = fill \/ path adj3 (fun d => In3 (dimx m) (dimy m) (dimz m) d /\ at3 m d = at3 m start) start c).
Proof.
  intros Hs. unfold flood_fill_matrix_3d.
  rewrite (proj2 (inb3_spec _ _ _ _) Hs). cbn [negb]. unfold flood_fill_3d_core.
  destruct (Bool.eqb (at3 m start) fill) eqn:E.
  - apply Bool.eqb_prop in E. exists m. repeat (split; [reflexivity|]). intros c. split; [intros G; left; exact G|].
    intros [G|G]; [exact G|]. apply path_end in G. destruct G as [_ G]. congruence.
  - assert (Hne : at3 m start <> fill) by (intros G; rewrite G, Bool.eqb_reflx in E; discriminate).
    assert (Hf : fill = negb (at3 m start)) by (destruct fill, (at3 m start); cbn; congruence).
    unfold In3 in Hs.
    assert (Hfuel : (2 * 6 * length (cells3 (dimx m) (dimy m) (dimz m)) + 1 < Z.to_nat (12 * (dimx m * dimy m * dimz m) + 2))%nat).
    { rewrite cells3_length by lia. assert (0 <= dimx m * dimy m) by nia. assert (0 <= dimx m * dimy m * dimz m) by nia. lia. }
    destruct (flood_correct eqb3 (inb3 (dimx m) (dimy m) (dimz m)) nbrs3 eqb3_spec (cells3 (dimx m) (dimy m) (dimz m))
      (fun c H => proj2 (in_cells3 _ _ _ _) (proj1 (inb3_spec _ _ _ _) H)) 6
      (fun c => ltac:(destruct c as [[? ?] ?]; cbn; lia)) (at3 m) (at3 m start) start
      _ (proj2 (inb3_spec (dimx m) (dimy m) (dimz m) start) ltac:(unfold In3; lia)) eq_refl Hfuel) as (r & Hr & H1 & H2).
    rewrite <- Hf in Hr. rewrite Hr. cbn [bind].
    eexists. split; [reflexivity|]. cbn [dimx dimy dimz at3]. split; [reflexivity|]. split; [reflexivity|]. split; [reflexivity|].
    assert (Hp : forall c, path (fun c0 d => In d (nbrs3 c0)) (fun d => inb3 (dimx m) (dimy m) (dimz m) d = true /\ at3 m d = at3 m start) start c
       <-> path adj3 (fun d => In3 (dimx m) (dimy m) (dimz m) d /\ at3 m d = at3 m start) start c).
    { intros c. apply path_iff; [apply nbrs3_adj|]. intros d. rewrite inb3_spec. reflexivity. }
    intros c. split.
    + intros G. destruct (H2 c) as [G'|G']; [left; congruence|right; apply Hp; exact G'].
    + intros [G|G].
      * destruct (H2 c) as [G'|G']; [congruence|]. rewrite Hf. apply H1. exact G'.
      * rewrite Hf. apply H1. apply Hp. exact G.
Qed.
Lemma flood2_out m start fill : ~ In2 (rows m) (cols m) start -> flood_fill_matrix_2d m start fill = Err IndexError.
Proof.
  intros H. unfold flood_fill_matrix_2d. destruct (inb2 (rows m) (cols m) start) eqn:E; [|reflexivity].
  apply inb2_spec in E. contradiction.
Qed.
Lemma flood3_out m start fill : ~ In3 (dimx m) (dimy m) (dimz m) start -> flood_fill_matrix_3d m start fill = Err IndexError.
Proof.
  intros H. unfold flood_fill_matrix_3d. destruct (inb3 (dimx m) (dimy m) (dimz m) start) eqn:E; [|reflexivity].
  apply inb3_spec in E. contradiction.
Qed.
