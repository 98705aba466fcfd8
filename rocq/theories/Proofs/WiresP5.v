(** The edges of a contour of a STEP file. *)
From Coq Require Import Reals List Permutation Lra Lia Bool.
From Verif.Model Require Import Base RBase Vec Frame Geometry Curves Edges Wires.
From Verif.Spec Require Import VecSpec EdgesSpec WiresSpec.
From Verif.Proofs Require Import VecP WiresP WiresP2 WiresP3.
Import ListNotations.
Open Scope R_scope.

Definition find_least (m : R) := fix find (l : list R) : nat := match l with [] => 0%nat | a :: l => if Reqb a m then 0%nat else S (find l) end.
Lemma find_least_spec m l : In m l -> (find_least m l < length l)%nat /\ nth (find_least m l) l 0 = m.
Proof.
  induction l as [|a l IH]; intros I; [destruct I|]. cbn [find_least]. destruct (Reqb a m) eqn:Q.
  - apply Reqb_spec in Q. subst. cbn. split; [lia|auto].
  - apply Reqb_false in Q. destruct I as [I | I]; [congruence|]. destruct (IH I). cbn. split; [lia|auto].
Qed.
Lemma fold_min_spec r : forall d, In (fold_left Rmin r d) (d :: r) /\ (forall x, In x (d :: r) -> fold_left Rmin r d <= x).
Proof.
  induction r as [|a r IH]; intros d; cbn [fold_left].
  - split; [left; auto|]. intros x [<- | []]. lra.
  - destruct (IH (Rmin d a)) as [I1 I2]. split.
    + destruct I1 as [I1 | I1]; [|right; right; auto]. rewrite <- I1. apply Rmin_case; [left|right; left]; auto.
    + intros x [<- | [<- | I]].
      * pose proof (I2 _ (or_introl eq_refl)). pose proof (Rmin_l d a). lra.
      * pose proof (I2 _ (or_introl eq_refl)). pose proof (Rmin_r d a). lra.
      * apply I2. right; auto.
Qed.
Lemma argmin_spec d r : (argmin (d :: r) < length (d :: r))%nat /\ nth (argmin (d :: r)) (d :: r) 0 = least (d :: r) /\ (forall x, In x (d :: r) -> least (d :: r) <= x).
Proof.
  destruct (fold_min_spec r d) as [I1 I2]. destruct (find_least_spec _ _ I1) as [F1 F2]. split; [exact F1|]. split; [exact F2|exact I2].
Qed.
Lemma argmin_unique d r i m : (i < length (d :: r))%nat -> nth i (d :: r) 0 = m -> (forall j, (j < length (d :: r))%nat -> j <> i -> m < nth j (d :: r) 0) -> argmin (d :: r) = i /\ least (d :: r) = m.
Proof.
  intros L Q U. destruct (argmin_spec d r) as (A1 & A2 & A3). assert (Lm : least (d :: r) <= m) by (rewrite <- Q; apply A3, nth_In; auto).
  destruct (Nat.eq_dec (argmin (d :: r)) i) as [E | N].
  - split; auto. rewrite <- A2, E. auto.
  - specialize (U _ A1 N). lra.
Qed.

Section W.
Context (K : edge_api) (OK : api_ok K).
Notation E := (edge K).
Definition two (a b : R) : nat := argmin [a; b].
Lemma two_spec a b : (two a b = 0%nat /\ least [a; b] = a) \/ (two a b = 1%nat /\ least [a; b] = b).
Proof.
  destruct (argmin_spec a [b]) as (A1 & A2 & _). fold (two a b) in *. destruct (two a b) as [|[|n]]; cbn in A1, A2; [left|right|lia]; auto.
Qed.
Lemma follow_sound : forall raw e l, follow K e raw = Some l -> joined K (/ 10 ^ 3) (e :: l) /\
  exists kept dropped, Permutation raw (kept ++ dropped) /\ Forall2 (fun a b => b = a \/ b = e_rev K a) kept l /\ (forall d, In d dropped -> exists f, In f (e :: l) /\ e_same K d f = true).
Proof.
  induction raw as [|x raw IH]; intros e l H; cbn [follow] in H.
  - apply some_inj in H. subst l. split; [apply joined_one|]. exists [], []. split; auto. split; auto. intros d [].
  - destruct (e_same K x e) eqn:Q.
    + destruct (IH e l H) as (J & kept & dropped & Pm & F & D). split; auto. exists kept, (x :: dropped). split; [rewrite <- Permutation_middle; auto|]. split; auto.
      intros d [<- | I]; [exists e; split; auto; left; auto|apply D; auto].
    + destruct (Rltb (/ 10 ^ 3) _) eqn:L; [discriminate|]. apply Rltb_false in L. fold (two (p_dist K (e_start K x) (e_end K e)) (p_dist K (e_end K x) (e_end K e))) in H.
      set (f := match two _ _ with O => x | _ => e_rev K x end) in H. destruct (follow K f raw) as [l'|] eqn:G; [|discriminate]. apply some_inj in H. subst l.
      destruct (IH f l' G) as (J & kept & dropped & Pm & F & D).
      assert (T : (f = x \/ f = e_rev K x) /\ p_dist K (e_end K e) (e_start K f) <= / 10 ^ 3).
      { unfold f. destruct (two_spec (p_dist K (e_start K x) (e_end K e)) (p_dist K (e_end K x) (e_end K e))) as [[-> M] | [-> M]].
        - split; auto. rewrite (dist_sym K OK). lra.
        - split; auto. rewrite (rev_start K OK), (dist_sym K OK). lra. }
      destruct T as [T D0]. split; [apply joined_cons; auto|]. exists (x :: kept), dropped. split; [cbn; auto|]. split; [constructor; auto|].
      intros d I. destruct (D d I) as (g & Ig & S). exists g. split; auto. right; auto.
Qed.
Lemma reversed_joined w : reversed_follow K w = true -> joined K (/ 10 ^ 6) w.
Proof.
  induction w as [|e w IH]; intros H; [apply joined_nil|]. destruct w as [|f w]; [apply joined_one|].
  cbn [reversed_follow] in H. apply andb_true_iff in H as [H1 H2]. apply Rltb_spec in H1. apply joined_cons. split; [rewrite (dist_sym K OK); lra|]. apply IH. exact H2.
Qed.
Lemma joined_weaken t t' w : t <= t' -> joined K t w -> joined K t' w.
Proof. intros T J w1 e f w2 Q. specialize (J w1 e f w2 Q). lra. Qed.
Lemma pow63 : / 10 ^ 6 <= / 10 ^ 3.
Proof. apply Rinv_le_contravar; lra. Qed.
Lemma reorder_sound raw l : reorder_step K raw = Ok (Some l) -> joined K (/ 10 ^ 3) l /\
  exists kept dropped, Permutation raw (kept ++ dropped) /\ same_edges K kept l /\ (forall d, In d dropped -> exists f, In f l /\ e_same K d f = true).
Proof.
  intros H. unfold reorder_step in H. destruct (reversed_follow K (rev raw)) eqn:R.
  { apply Ok_inj, some_inj in H. subst l. split; [apply (joined_weaken (/ 10 ^ 6)); [apply pow63|apply reversed_joined; auto]|]. exists raw, []. rewrite app_nil_r. split; auto. split; [|intros d []].
    exists (rev raw). split; [apply Permutation_rev|]. clear. induction (rev raw); constructor; auto. }
  destruct raw as [|e0 [|e1 r]]; try discriminate. destruct (Rltb (/ 10 ^ 3) _) eqn:L; [discriminate|]. apply Rltb_false in L.
  destruct (argmin_spec (p_dist K (e_end K e0) (e_start K e1)) [p_dist K (e_start K e0) (e_start K e1); p_dist K (e_end K e0) (e_end K e1); p_dist K (e_start K e0) (e_end K e1)]) as (A1 & A2 & _).
  destruct (match argmin _ with 0%nat => (e0, e1) | 1%nat => (e_rev K e0, e1) | 2%nat => (e0, e_rev K e1) | _ => (e_rev K e0, e_rev K e1) end) as [f0 f1] eqn:F.
  assert (T : (f0 = e0 \/ f0 = e_rev K e0) /\ (f1 = e1 \/ f1 = e_rev K e1) /\ p_dist K (e_end K f0) (e_start K f1) <= / 10 ^ 3).
  { destruct (argmin _) as [|[|[|[|n]]]]; try (cbn in A1; lia); cbn [nth] in A2; apply pair_equal_spec in F as [<- <-]; do 2 (split; [auto|]); rewrite ?(rev_start K OK), ?(rev_end K OK); lra. }
  destruct T as (T0 & T1 & D). apply Ok_inj in H. destruct (follow K f1 r) as [l'|] eqn:G; [|discriminate]. apply some_inj in H. subst l.
  destruct (follow_sound _ _ _ G) as (J & kept & dropped & Pm & F2 & Dr). split; [apply joined_cons; auto|]. exists (e0 :: e1 :: kept), dropped. split; [cbn; auto|]. split.
  - exists (e0 :: e1 :: kept). split; auto.
  - intros d I. destruct (Dr d I) as (f & If & S). exists f. split; auto. right; auto.
Qed.
(** a chain whose edges may be reversed is put back in order *)
Definition apart (w : list E) : Prop :=
  (forall e, In e w -> / 10 ^ 6 < p_dist K (e_start K e) (e_end K e)) /\ (forall w1 e f w2, w = w1 ++ e :: f :: w2 -> / 10 ^ 6 < p_dist K (e_start K e) (e_end K f)).
Lemma apart_cons e w : apart (e :: w) -> apart w.
Proof. intros [A B]. split; [intros f I; apply A; right; auto|]. intros w1 x y w2 Q. apply (B (e :: w1) x y w2). rewrite Q. reflexivity. Qed.
Lemma same_turned : api_same K -> forall x e f, x = f \/ x = e_rev K f -> e_same K x e = true -> e_same K f e = true.
Proof.
  intros S x e f [-> | ->] H; auto. apply S. apply S in H. rewrite (rev_start K OK), (rev_end K OK) in H. tauto.
Qed.
Lemma not_same : api_same K -> forall e f w, joined K 0 (e :: f :: w) -> apart (e :: f :: w) -> e_same K f e = false.
Proof.
  intros S e f w J [A B]. destruct (e_same K f e) eqn:Q; auto. apply S in Q. apply joined_cons in J as [D _].
  assert (A1 := A e (or_introl eq_refl)). assert (B1 := B [] e f w eq_refl). exfalso.
  pose proof (dist_tri K OK (e_start K e) (e_start K f) (e_end K e)). pose proof (dist_tri K OK (e_start K e) (e_end K f) (e_end K e)).
  pose proof (dist_sym K OK (e_start K f) (e_start K e)). pose proof (dist_sym K OK (e_end K e) (e_start K f)). pose proof (dist_sym K OK (e_end K f) (e_start K e)). destruct Q as [[Q _] | [Q _]]; lra.
Qed.
Lemma follow_complete : api_same K -> forall w e raw, joined K 0 (e :: w) -> apart (e :: w) -> Forall2 (fun a b => b = a \/ b = e_rev K a) w raw -> follow K e raw = Some w.
Proof.
  intros S w. induction w as [|f w IH]; intros e raw J A F; inversion F as [|? x ? raw' T F']; subst; [reflexivity|]. cbn [follow].
  assert (Q : e_same K x e = false). { destruct (e_same K x e) eqn:Q; auto. apply (same_turned S x e f T) in Q. rewrite (not_same S e f w J A) in Q. discriminate. }
  rewrite Q. pose proof (proj1 (proj1 (joined_cons K 0 e f w) J)) as D. pose proof (dist_pos K OK (e_end K e) (e_start K f)) as D'. pose proof (dist_sym K OK (e_end K e) (e_start K f)) as D2.
  assert (N : 0 < p_dist K (e_end K f) (e_end K e)).
  { destruct A as [A _]. specialize (A f ltac:(right; left; auto)). pose proof (dist_tri K OK (e_start K f) (e_end K e) (e_end K f)). pose proof (dist_sym K OK (e_end K e) (e_end K f)). pose proof (pow10_inv_pos 6). lra. }
  pose proof (pow10_inv_pos 3).
  assert (I : forall l i, (i < length (l : list R))%nat -> nth i l 0 = 0 -> (forall j, (j < length l)%nat -> j <> i -> 0 < nth j l 0) -> argmin l = i /\ least l = 0).
  { intros [|d r] i Hi; [cbn in Hi; lia|]. apply argmin_unique; auto. }
  destruct T as [-> | ->].
  - destruct (I [p_dist K (e_start K f) (e_end K e); p_dist K (e_end K f) (e_end K e)] 0%nat) as [-> ->]; [cbn; lia|cbn; lra|intros [|[|j]] Hj Nj; cbn in Hj |- *; try lia; lra|].
    replace (Rltb (/ 10 ^ 3) 0) with false by (symmetry; apply Rltb_false; lra). rewrite (IH f raw'); auto. apply joined_cons in J; tauto. apply apart_cons in A; auto.
  - rewrite (rev_start K OK), (rev_end K OK). destruct (I [p_dist K (e_end K f) (e_end K e); p_dist K (e_start K f) (e_end K e)] 1%nat) as [-> ->]; [cbn; lia|cbn; lra|intros [|[|j]] Hj Nj; cbn in Hj |- *; try lia; lra|].
    replace (Rltb (/ 10 ^ 3) 0) with false by (symmetry; apply Rltb_false; lra). rewrite (rev_rev K OK). rewrite (IH f raw'); auto. apply joined_cons in J; tauto. apply apart_cons in A; auto.
Qed.
Lemma reorder_complete : api_same K -> forall w raw, (2 <= length w)%nat -> joined K 0 w -> apart w -> Forall2 (fun a b => b = a \/ b = e_rev K a) w raw ->
  reorder_step K raw = Ok (Some w) \/ (reorder_step K raw = Ok (Some (rev raw)) /\ joined K (/ 10 ^ 6) (rev raw)).
Proof.
  intros S w raw L J A F. unfold reorder_step. destruct (reversed_follow K (rev raw)) eqn:RF; [right; split; auto; apply reversed_joined; auto|]. left.
  destruct w as [|f0 [|f1 w]]; try (cbn in L; lia). inversion F as [|? e0 ? raw1 T0 F1]; subst. inversion F1 as [|? e1 ? raw2 T1 F2]; subst.
  pose proof (proj1 (proj1 (joined_cons K 0 f0 f1 w) J)) as D. assert (J1 := proj2 (proj1 (joined_cons K 0 f0 f1 w) J)).
  pose proof (dist_pos K OK (e_end K f0) (e_start K f1)) as D'. pose proof (dist_sym K OK (e_end K f0) (e_start K f1)) as D2.
  pose proof (pow10_inv_pos 3). pose proof (pow10_inv_pos 6).
  assert (N1 : 0 < p_dist K (e_start K f0) (e_start K f1)).
  { destruct A as [A _]. specialize (A f0 ltac:(left; auto)). pose proof (dist_tri K OK (e_start K f0) (e_start K f1) (e_end K f0)). lra. }
  assert (N2 : 0 < p_dist K (e_end K f0) (e_end K f1)).
  { destruct A as [A _]. specialize (A f1 ltac:(right; left; auto)). pose proof (dist_tri K OK (e_start K f1) (e_end K f0) (e_end K f1)). lra. }
  assert (N3 : 0 < p_dist K (e_start K f0) (e_end K f1)). { destruct A as [_ A]. specialize (A [] f0 f1 w eq_refl). lra. }
  assert (I : forall l i, (i < length (l : list R))%nat -> nth i l 0 = 0 -> (forall j, (j < length l)%nat -> j <> i -> 0 < nth j l 0) -> argmin l = i /\ least l = 0).
  { intros [|d r] i Hi; [cbn in Hi; lia|]. apply argmin_unique; auto. }
  assert (Fo : follow K f1 raw2 = Some w). { apply follow_complete; auto. apply apart_cons in A; auto. }
  assert (Z : Rltb (/ 10 ^ 3) 0 = false) by (apply Rltb_false; lra).
  destruct T0 as [-> | ->]; destruct T1 as [-> | ->]; rewrite ?(rev_start K OK), ?(rev_end K OK), ?(rev_rev K OK).
  - destruct (I [p_dist K (e_end K f0) (e_start K f1); p_dist K (e_start K f0) (e_start K f1); p_dist K (e_end K f0) (e_end K f1); p_dist K (e_start K f0) (e_end K f1)] 0%nat) as [-> ->];
      [cbn; lia|cbn; lra|intros [|[|[|[|j]]]] Hj Nj; cbn in Hj |- *; try lia; lra|]. rewrite Z, Fo. reflexivity.
  - destruct (I [p_dist K (e_end K f0) (e_end K f1); p_dist K (e_start K f0) (e_end K f1); p_dist K (e_end K f0) (e_start K f1); p_dist K (e_start K f0) (e_start K f1)] 2%nat) as [-> ->];
      [cbn; lia|cbn; lra|intros [|[|[|[|j]]]] Hj Nj; cbn in Hj |- *; try lia; lra|]. rewrite Z, Fo. reflexivity.
  - destruct (I [p_dist K (e_start K f0) (e_start K f1); p_dist K (e_end K f0) (e_start K f1); p_dist K (e_start K f0) (e_end K f1); p_dist K (e_end K f0) (e_end K f1)] 1%nat) as [-> ->];
      [cbn; lia|cbn; lra|intros [|[|[|[|j]]]] Hj Nj; cbn in Hj |- *; try lia; lra|]. rewrite Z, Fo. reflexivity.
  - destruct (I [p_dist K (e_start K f0) (e_end K f1); p_dist K (e_end K f0) (e_end K f1); p_dist K (e_start K f0) (e_start K f1); p_dist K (e_end K f0) (e_start K f1)] 3%nat) as [-> ->];
      [cbn; lia|cbn; lra|intros [|[|[|[|j]]]] Hj Nj; cbn in Hj |- *; try lia; lra|]. rewrite Z, Fo. reflexivity.
Qed.
End W.
