From Coq Require Import Reals Lra List Lia Sorted.
From Verif.Model Require Import Base RBase Vec Frame Geometry Curves Edges Arcs Rounded.
From Verif.Spec Require Import VecSpec CurvesSpec RoundedSpec.
From Verif.Proofs Require Import VecP RoundedP RoundedP2 RoundedP3 RoundedP4 RoundedP5 RoundedP6.
Import ListNotations.
Open Scope R_scope.

Lemma mapM_length {A B} (f : A -> res B) l r : mapM f l = Ok r -> length r = length l.
Proof. revert r. induction l as [|a l IH]; cbn [mapM]; intros r H; [apply Ok_inj in H; subst; auto|]. apply bind_ok in H as (b & _ & H). apply bind_ok in H as (r' & H2 & H). apply Ok_inj in H. subst. cbn. rewrite (IH _ H2). auto. Qed.
Lemma mapM_nth {A B} (f : A -> res B) l r j a : mapM f l = Ok r -> nth_error l j = Some a -> exists b, nth_error r j = Some b /\ f a = Ok b.
Proof.
  revert r j. induction l as [|x l IH]; cbn [mapM]; intros r j H E; [destruct j; discriminate|]. apply bind_ok in H as (b & B1 & H). apply bind_ok in H as (r' & H2 & H). apply Ok_inj in H. subst.
  destruct j as [|j]; cbn in *; [inversion E; subst; eauto|eauto].
Qed.
Lemma entries_keys s es : mapM (features s) (map fst (rrad s)) = Ok es -> map e_i es = map fst (rrad s).
Proof.
  generalize (map fst (rrad s)) as l. intros l. revert es. induction l as [|a l IH]; cbn [mapM]; intros es H; [apply Ok_inj in H; subst; auto|]. apply bind_ok in H as (b & B1 & H). apply bind_ok in H as (r' & H2 & H). apply Ok_inj in H. subst. cbn. rewrite (features_i _ _ _ B1), (IH _ H2). auto.
Qed.
Lemma nodup_map_inj {A} (f : A -> nat) l a b : NoDup (map f l) -> In a l -> In b l -> f a = f b -> a = b.
Proof.
  induction l as [|x l IH]; cbn; [tauto|]. intros N. inversion N as [|? ? P Q]; subst. intros [->|I] [->|J] E; auto; exfalso; apply P; [rewrite E|rewrite <- E]; apply in_map; auto.
Qed.
Lemma filter_split {A} (f : A -> bool) l g : In g l -> f g = true -> exists pre post, filter f l = pre ++ g :: post.
Proof. intros I F. apply in_split. apply filter_In. auto. Qed.
Lemma combine_nth {A B} (l : list A) (m : list B) j a b : nth_error l j = Some a -> nth_error m j = Some b -> In (a, b) (combine l m).
Proof. revert m j. induction l as [|x l IH]; intros m [|j] H1 H2; cbn in *; try discriminate; destruct m as [|y m]; cbn in *; try discriminate. inversion H1; inversion H2; auto. right; eauto. Qed.
Lemma combine_in_nth {A B} (l : list A) (m : list B) a b : In (a, b) (combine l m) -> exists j, nth_error l j = Some a /\ nth_error m j = Some b.
Proof. revert m. induction l as [|x l IH]; intros [|y m]; cbn; try tauto. intros [H|H]; [inversion H; subst; exists 0%nat; auto|]. destruct (IH _ H) as (j & P & Q). exists (S j). auto. Qed.
Lemma nodup_nth {A} (f : A -> nat) l j k a b : NoDup (map f l) -> nth_error l j = Some a -> nth_error l k = Some b -> f a = f b -> j = k.
Proof.
  intros N A1 A2 E. assert (B1 : nth_error (map f l) j = Some (f a)) by (rewrite nth_error_map, A1; auto). assert (B2 : nth_error (map f l) k = Some (f a)) by (rewrite nth_error_map, A2, E; auto).
  rewrite NoDup_nth_error in N. apply N; [apply nth_error_Some; congruence|congruence].
Qed.
Lemma concat_nth {A} pre g (post : list (list A)) x e y : g = x ++ e :: y -> nth_error (concat (pre ++ g :: post)) (length (concat pre) + length x) = Some e.
Proof.
  intros ->. rewrite concat_app. cbn [concat]. rewrite nth_error_app2 by lia. replace (length (concat pre) + length x - length (concat pre))%nat with (length x) by lia. rewrite <- app_assoc. rewrite nth_error_app2 by lia. rewrite Nat.sub_diag. auto.
Qed.
Lemma in_singles_or_long gs e : Forall (fun g => g <> []) gs -> In e (concat gs) -> In [e] gs \/ In e (concat (filter long gs)).
Proof.
  intros NE I. apply in_concat in I as (g & G & I). rewrite Forall_forall in NE. specialize (NE _ G). destruct g as [|a [|b g]]; [tauto| |].
  - destruct I as [->|[]]; auto.
  - right. apply in_concat. exists (a :: b :: g). split; auto. apply filter_In. auto.
Qed.
Lemma nodup_long (gs : list (list entry)) : NoDup (map e_i (concat gs)) -> NoDup (map e_i (concat (filter long gs))).
Proof.
  induction gs as [|g gs IH]; cbn; auto. rewrite map_app. intros N. assert (N2 : NoDup (map e_i (concat gs))) by (clear - N; induction (map e_i g); cbn in N; auto; inversion N; auto).
  destruct (long g); [|auto]. cbn. rewrite map_app. specialize (IH N2).
  induction g as [|a g IHg]; cbn in *; auto. inversion N as [|? ? P Q]; subst. constructor; [|auto]. intros I. apply P. apply in_app_or in I as [I|I]; apply in_or_app; auto. right. apply in_map_iff in I as (z & <- & I). apply in_map. apply in_concat in I as (h & H & I). apply filter_In in H as [H _]. apply in_concat. eauto.
Qed.
Lemma single_not_long gs e : NoDup (map e_i (concat gs)) -> In [e] gs -> ~ In (e_i e) (map e_i (concat (filter long gs))).
Proof.
  induction gs as [|g gs IH]; cbn; [tauto|]. rewrite map_app. intros N I J.
  assert (N2 : NoDup (map e_i (concat gs))) by (clear - N; induction (map e_i g); cbn in N; auto; inversion N; auto).
  assert (DJ : forall k, In k (map e_i g) -> In k (map e_i (concat gs)) -> False).
  { intros k K1 K2. clear - N K1 K2. induction (map e_i g) as [|a l IH]; [destruct K1|]. cbn in N. inversion N as [|? ? P Q]; subst. destruct K1 as [->|K1]; [apply P, in_or_app; auto|auto]. }
  assert (SUB : forall k, In k (map e_i (concat (filter long gs))) -> In k (map e_i (concat gs))).
  { intros k K. apply in_map_iff in K as (z & <- & K). apply in_map. apply in_concat in K as (h & H & K). apply filter_In in H as [H _]. apply in_concat. eauto. }
  destruct I as [->|I].
  - cbn in J. apply (DJ (e_i e)); cbn; auto.
  - destruct (long g); [|eapply IH; eauto]. cbn in J. rewrite map_app in J. apply in_app_or in J as [J|J]; [|eapply IH; eauto]. apply (DJ (e_i e)); auto. apply in_map, in_concat. exists [e]. cbn. auto.
Qed.

(** what adapt does to each radius *)
Section Adapt.
Variables (lp : lp_solver) (s : rls) (gs : list (list entry)) (rad : list (nat * R)).
Hypothesis SS : StronglySorted lt (map fst (rrad s)).
Hypothesis CUTS : forall j, In j (map fst (rrad s)) -> exists d, cut s (rrad s) j d.
Hypothesis LP : forall c rows bounds x, lp c rows bounds = Ok x -> lp_feasible rows bounds x.
Hypothesis GS : groups s = Ok gs.
Hypothesis AD : adapt lp s gs = Ok rad.
Let N := sorted_nodup _ SS.

Lemma entries_ok : NoDup (map e_i (concat gs)) /\ map e_i (concat gs) = map fst (rrad s) /\ Forall (fun g => g <> []) gs /\ Forall run gs /\
  (forall pre e1 e2 post, concat gs = pre ++ e1 :: e2 :: post -> fits s e1 e2 \/ together gs e1 e2) /\ (forall e, In e (concat gs) -> features s (e_i e) = Ok e).
Proof.
  pose proof GS as G. apply groups_spec in G as (es & ES & CC & NE & RR & A). rewrite CC. pose proof (entries_keys _ _ ES) as K. rewrite K. split; [exact N|]. split; auto. split; auto. split; auto. split.
  - intros pre e1 e2 post Q. destruct (A _ _ _ _ Q) as [|[_ ?]]; auto.
  - intros e I. destruct (mapM_in _ _ _ _ ES I) as (i & _ & F). rewrite (features_i _ _ _ F). auto.
Qed.
Lemma entry_ok e : In e (concat gs) -> 0 < e_a e < PI / 2 /\ exists r p1 pi p2, In (e_i e, r) (rrad s) /\ 0 < r /\ corner s (e_i e) p1 pi p2 /\ half_angle p1 pi p2 (e_a e) /\ / 10 ^ 6 < 2 * cos (e_a e) /\ e_d e = r / tan (e_a e).
Proof.
  intros I. destruct entries_ok as (_ & K & _ & _ & _ & F). assert (IK : In (e_i e) (map fst (rrad s))) by (rewrite <- K; apply in_map; auto). destruct (CUTS _ IK) as (d & C). destruct (cut_entry _ _ _ _ N IK C (F _ I)) as (D & A & r & p1 & pi & p2 & H). rewrite <- D in H. split; auto. exists r, p1, pi, p2. tauto.
Qed.
(** the answer of the linear program *)
Definition answer (rows : list (nat * nat * R)) (x : list R) : Prop :=
  lp_all_rows s 0 (filter long gs) = Ok rows /\
  exists bounds, mapM (fun e => match lookup (e_i e) (rrad s) with None => Err KeyError | Some r => Ok (r * cos (e_a e) / sin (e_a e)) end) (concat (filter long gs)) = Ok bounds /\
  lp (map (fun e => - tan (e_a e)) (concat (filter long gs))) rows bounds = Ok x.
Lemma answer_fun rows rows' x x' : answer rows x -> answer rows' x' -> rows = rows' /\ x = x'.
Proof. intros (A & b & B & C) (A' & b' & B' & C'). rewrite A in A'. apply Ok_inj in A'. subst rows'. rewrite B in B'. apply Ok_inj in B'. subst b'. rewrite C in C'. apply Ok_inj in C'. auto. Qed.
(** the solution of the linear program, or nothing *)
Lemma adapt_cases : exists rad1, foldM (one_step s) gs (rrad s) = Ok rad1 /\
  ((concat (filter long gs) = [] /\ rad = rad1) \/
   (exists rows bounds x, answer rows x /\ lp_feasible rows bounds x /\ length bounds = length (concat (filter long gs)) /\
     (forall j e, nth_error (concat (filter long gs)) j = Some e -> exists r, lookup (e_i e) (rrad s) = Some r /\ nth_error bounds j = Some (r * cos (e_a e) / sin (e_a e))) /\
     rad = fold_left set_solution (combine (concat (filter long gs)) x) rad1)).
Proof.
  pose proof AD as H. unfold adapt in H. apply bind_ok in H as (rad1 & R1 & H). exists rad1. split; [exact R1|].
  destruct (concat (filter long gs)) as [|e0 dofs] eqn:D; [apply Ok_inj in H; subst; auto|]. rewrite <- D in H. right.
  assert (X : forall A (k : res A), match concat (filter long gs) with [] => Ok rad1 | _ :: _ => Ok rad1 end = Ok rad1) by (intros; destruct (concat (filter long gs)); auto). clear X. rewrite D in H.
  apply bind_ok in H as (rows & RW & H). apply bind_ok in H as (bounds & BD & H). apply bind_ok in H as (x & XX & H). apply Ok_inj in H. exists rows, bounds, x. split; [unfold answer; rewrite D; split; [exact RW|exists bounds; auto]|]. split; [eapply LP; eauto|]. split; [apply mapM_length in BD; auto|]. split; [|auto].
  intros j e E. destruct (mapM_nth _ _ _ _ _ BD E) as (b & B1 & B2). destruct (lookup (e_i e) (rrad s)) as [r|]; [|discriminate]. apply Ok_inj in B2. subst b. eauto.
Qed.
Lemma tan_pos a : 0 < a < PI / 2 -> 0 < tan a /\ 0 < cos a /\ 0 < sin a.
Proof. intros H. split; [apply tan_gt_0; lra|]. split; [apply cos_gt_0; lra|apply sin_gt_0; lra]. Qed.
Lemma adapt_radius k r' : lookup k rad = Some r' -> exists r e, In (k, r) (rrad s) /\ In e (concat gs) /\ e_i e = k /\ 0 < r' <= r /\
  ((In [e] gs /\ tame s e r r') \/
   (exists rad1 rows bounds x j, rad = fold_left set_solution (combine (concat (filter long gs)) x) rad1 /\ NoDup (map fst rad1) /\ answer rows x /\ lp_feasible rows bounds x /\ length x = length (concat (filter long gs)) /\ nth_error (concat (filter long gs)) j = Some e /\ nth_error x j = Some (r' / tan (e_a e)))).
Proof.
  intros L. destruct entries_ok as (ND & K & NE & RR & _ & F). destruct adapt_cases as (rad1 & R1 & C). destruct (singles_spec s gs _ _ R1 ND) as [K1 S1].
  assert (ONE : forall r1, lookup k rad1 = Some r1 -> ~ In k (map e_i (concat (filter long gs))) -> exists r e, In (k, r) (rrad s) /\ In e (concat gs) /\ e_i e = k /\ 0 < r1 <= r /\ In [e] gs /\ tame s e r r1).
  { intros r1 L1 NL. destruct (S1 _ _ L1) as (r & LR & CC). apply lookup_in in LR. assert (IK : In k (map e_i (concat gs))) by (rewrite K; apply (in_map fst) in LR; exact LR).
    apply in_map_iff in IK as (e & EK & IE). destruct CC as [(-> & CC)|(e' & I' & E' & T)].
    - exfalso. destruct (in_singles_or_long gs e NE IE) as [I|I]; [apply (CC e I EK)|apply NL; rewrite <- EK; apply in_map; auto].
    - exists r, e'. split; auto. assert (IE' : In e' (concat gs)) by (apply in_concat; exists [e']; cbn; auto). split; auto. split; auto. split; [|auto].
      destruct (entry_ok e' IE') as (A & r2 & p1 & pi & p2 & IR & Hr & CO & HA & W & D). rewrite E' in IR. assert (r2 = r) by (apply in_lookup in IR, LR; auto; congruence). subst r2.
      destruct T as (q1 & q2 & q3 & G & ->). apply get_points_corner in G. rewrite E' in G, CO. destruct (corner_fun _ _ _ _ _ _ _ _ CO G) as (<- & <- & <-).
      destruct HA as (N1 & N2 & _). destruct (tan_pos _ A) as (T & _).
      assert (P1 : 0 < point_distance2 p1 pi) by (pose proof (norm2_pos (sub2 p1 pi)) as [P|P]; [exact P|exfalso; apply N1, dist2_zero; auto]).
      assert (P2 : 0 < point_distance2 pi p2) by (pose proof (norm2_pos (sub2 pi p2)) as [P|P]; [exact P|exfalso; apply N2; symmetry; apply dist2_zero; auto]).
      destruct (Rltb _ _); [|lra]. split; [|apply Rmin_l]. assert (0 < Rmin (point_distance2 p1 pi) (point_distance2 pi p2)) by (apply Rmin_case; auto). apply Rmin_case; nra. }
  destruct C as [[Z ->]|(rows & bounds & x & RW & FE & LB & BD & ->)].
  - destruct (ONE r' L) as (r & e & A1 & A2 & A3 & A4 & A5); [rewrite Z; auto|]. exists r, e. tauto.
  - pose proof FE as (LX & BX & RX). rewrite LB in LX.
    assert (MF : map (fun ex : entry * R => e_i (fst ex)) (combine (concat (filter long gs)) x) = map e_i (concat (filter long gs))).
    { clear - LX. revert x LX. induction (concat (filter long gs)) as [|a l IH]; intros [|b x] LX; cbn in *; try discriminate; auto. rewrite IH; auto. }
    destruct (solutions_spec _ rad1 (eq_ind_r (fun l => NoDup l) (nodup_long _ ND) MF) k r' L) as [[L1 NI]|(r1 & e & v & L1 & IN & EK & -> & PR)].
    + rewrite MF in NI. destruct (ONE r' L1 NI) as (r & e & A1 & A2 & A3 & A4 & A5). exists r, e. tauto.
    + apply combine_in_nth in IN as (j & J1 & J2). assert (IE : In e (concat gs)). { apply nth_error_In in J1. apply in_concat in J1 as (h & H & I). apply filter_In in H as [H _]. apply in_concat. eauto. }
      destruct (entry_ok e IE) as (A & r2 & p1 & pi & p2 & IR & Hr & CO & HA & W & D). destruct (tan_pos _ A) as (T & T2 & T3).
      exists r2, e. rewrite EK in IR. split; auto. split; auto. split; auto.
      destruct (BD _ _ J1) as (r3 & L3 & B3). rewrite EK in L3. assert (r3 = r2) by (apply in_lookup in IR; auto; congruence). subst r3. pose proof (BX _ _ _ B3 J2) as [V0 V1].
      split. { split; [assert (0 < / 10 ^ 10) by (apply Rinv_0_lt_compat, pow_lt; lra); lra|]. apply Rle_trans with (r2 * cos (e_a e) / sin (e_a e) * tan (e_a e)); [apply Rmult_le_compat_r; lra|]. unfold tan. right. field. lra. }
      right. exists rad1, rows, bounds, x, j. split; [reflexivity|]. split; [rewrite K1; exact N|]. split; [exact RW|]. split; [exact FE|]. split; auto. split; auto. rewrite J2. f_equal. field. lra.
Qed.
End Adapt.
