From Coq Require Import Reals Lra List Lia Sorted.
From Verif.Model Require Import Base RBase Vec Frame Geometry Curves Edges Arcs Rounded.
From Verif.Spec Require Import VecSpec CurvesSpec RoundedSpec.
From Verif.Proofs Require Import VecP RoundedP RoundedP2 RoundedP3 RoundedP4 RoundedP5 RoundedP6 RoundedP7.
Import ListNotations.
Open Scope R_scope.

Lemma map_split {A} (f : A -> nat) l x i j y : map f l = x ++ i :: j :: y -> exists u a b v, l = u ++ a :: b :: v /\ f a = i /\ f b = j.
Proof.
  revert x. induction l as [|c l IH]; intros x H; [destruct x; discriminate|]. destruct x as [|z x].
  - destruct l as [|d l]; [discriminate|]. cbn in H. inversion H. exists [], c, d, l. auto.
  - cbn in H. inversion H. destruct (IH _ H2) as (u & a & b & v & -> & A1 & A2). exists (c :: u), a, b, v. auto.
Qed.
(** with adapt_radius *)
Lemma adapted lp s rad l : StronglySorted lt (map fst (rrad s)) -> radapt s = true -> (forall j, In j (map fst (rrad s)) -> exists d, cut s (rrad s) j d) ->
  (forall c rows bounds x, lp c rows bounds = Ok x -> lp_feasible rows bounds x) -> rounded_primitives lp s = Ok (rad, l) ->
  NoDup (map fst rad) /\
  (forall i r', In (i, r') rad -> exists r, In (i, r) (rrad s) /\ 0 < r' <= r) /\
  (forall i d1 d2 p q, In i (map fst rad) -> In (S i) (map fst rad) -> cut s rad i d1 -> cut s rad (S i) d2 -> nth_error (rpts s) i = Some p -> nth_error (rpts s) (S i) = Some q -> d1 + d2 <= point_distance2 p q) /\
  (forall i d p1 p p2, In i (map fst rad) -> ~ In (S i) (map fst (rrad s)) -> (forall k, i = S k -> ~ In k (map fst (rrad s))) -> cut s rad i d -> corner s i p1 p p2 -> d <= point_distance2 p1 p /\ d <= point_distance2 p p2).
Proof.
  intros SS RA CUTS LP H. pose proof (sorted_nodup _ SS) as N. unfold rounded_primitives in H. apply bind_ok in H as (gs & GS & H). rewrite RA in H. apply bind_ok in H as (rad' & AD & H). apply bind_ok in H as (arcs & _ & H). apply bind_ok in H as (l' & _ & H). apply Ok_inj in H. apply pair_equal_spec in H as [-> ->].
  destruct (entries_ok s gs SS GS) as (ND & K & NE & RR & AJ & FT).
  assert (NR : NoDup (map fst rad)).
  { destruct (adapt_cases lp s gs rad LP AD) as (rad1 & R1 & C). destruct (singles_spec s gs _ _ R1 ND) as [K1 _]. destruct C as [[_ ->]|(rows & bounds & x & _ & _ & _ & _ & ->)]; [rewrite K1; auto|]. apply nodup_solutions. rewrite K1. auto. }
  pose proof (fun k r' => adapt_radius lp s gs rad SS CUTS LP GS AD k r') as AR. split; auto.
  split. { intros i r' I. apply in_lookup in I; auto. destruct (AR _ _ I) as (r & e & A1 & _ & _ & A4 & _). eauto. }
  (* the new cut of an entry *)
  assert (CT : forall i d e, In i (map fst rad) -> cut s rad i d -> In e (concat gs) -> e_i e = i -> exists r', lookup i rad = Some r' /\ d = r' / tan (e_a e) /\ 0 < tan (e_a e)).
  { intros i d e I [[Z _]|(r' & p1 & pi & p2 & a & IR & Hr & CO & HA & W & ->)] IE EI; [tauto|]. exists r'. split; [apply in_lookup; auto|].
    destruct (entry_ok s gs SS CUTS GS e IE) as (A & r0 & q1 & qi & q2 & _ & _ & CO' & HA' & _). rewrite EI in CO'. destruct (corner_fun _ _ _ _ _ _ _ _ CO CO') as (<- & <- & <-). rewrite (half_angle_unique _ _ _ _ _ HA HA'). split; auto. apply (tan_pos _ A). }
  assert (LE : forall i d e, In i (map fst rad) -> cut s rad i d -> In e (concat gs) -> e_i e = i -> d <= e_d e).
  { intros i d e I C IE EI. destruct (CT i d e I C IE EI) as (r' & L & -> & T). destruct (AR _ _ L) as (r & e' & A1 & A2 & A3 & A4 & _). assert (e' = e) by (apply (nodup_map_inj e_i (concat gs)); auto; congruence). subst e'.
    destruct (entry_ok s gs SS CUTS GS e IE) as (A & r0 & q1 & qi & q2 & IR & _ & _ & _ & _ & D). rewrite EI in IR. assert (r0 = r) by (apply in_lookup in IR, A1; auto; congruence). subst r0. rewrite D. apply Rmult_le_compat_r; [left; apply Rinv_0_lt_compat, T|lra]. }
  assert (KEY : forall i, In i (map fst rad) -> In i (map fst (rrad s))).
  { intros i I. apply in_map_iff in I as ([k r'] & <- & I). apply in_lookup in I; auto. destruct (AR _ _ I) as (r & e & A1 & _). apply (in_map fst) in A1. exact A1. }
  split.
  - intros i d1 d2 p q I J C1 C2 P Q.
    destruct (sorted_next _ _ SS (KEY _ I) (KEY _ J)) as (x & y & KK). rewrite <- K in KK. apply map_split in KK as (u & e1 & e2 & v & E & I1 & I2).
    assert (IE1 : In e1 (concat gs)) by (rewrite E; apply in_elt). assert (IE2 : In e2 (concat gs)) by (rewrite E; apply in_or_app; cbn; auto).
    destruct (AJ _ _ _ _ E) as [[Z|(p' & q' & P' & Q' & L)]|(g & gx & gy & IG & EG)].
    + congruence.
    + rewrite I1 in P'. rewrite I2 in Q'. assert (p' = p) by congruence. assert (q' = q) by congruence. subst. rewrite (dist2_sym p q). unfold point_distance2. pose proof (LE _ _ _ I C1 IE1 eq_refl). pose proof (LE _ _ _ J C2 IE2 I2). lra.
    + assert (LG : long g = true) by (rewrite EG; destruct gx as [|? [|? ?]]; auto). destruct (filter_split long gs g IG LG) as (pre & post & FS).
      assert (IL1 : nth_error (concat (filter long gs)) (length (concat pre) + length gx) = Some e1) by (rewrite FS; apply (concat_nth _ _ _ _ _ (e2 :: gy)); auto).
      assert (IL2 : nth_error (concat (filter long gs)) (S (length (concat pre) + length gx)) = Some e2).
      { rewrite FS. replace (S (length (concat pre) + length gx)) with (length (concat pre) + length (gx ++ [e1]))%nat by (rewrite app_length; cbn; lia). apply (concat_nth _ _ _ _ _ gy). rewrite EG, <- app_assoc. auto. }
      pose proof (nodup_long _ ND) as NDL.
      assert (SOL : forall k d e j, In k (map fst rad) -> cut s rad k d -> In e (concat gs) -> e_i e = k -> nth_error (concat (filter long gs)) j = Some e ->
        exists rows bounds x, answer lp s gs rows x /\ lp_feasible rows bounds x /\ nth_error x j = Some d).
      { intros k d e j Ik Ck IE EI Jj. destruct (CT k d e Ik Ck IE EI) as (r' & L & -> & T). destruct (AR _ _ L) as (r & e' & A1 & A2 & A3 & _ & A5). assert (e' = e) by (apply (nodup_map_inj e_i (concat gs)); auto; congruence). subst e'.
        destruct A5 as [[SG _]|(rad1 & rows & bounds & xx & j' & _ & _ & AN & FE & _ & J1 & J2)].
        - exfalso. apply (single_not_long gs e ND SG). apply in_map. apply nth_error_In in Jj. auto.
        - assert (j' = j) by (apply (nodup_nth e_i (concat (filter long gs)) _ _ e e); auto). subst j'. exists rows, bounds, xx. auto. }
      destruct (SOL _ _ _ _ I C1 IE1 I1 IL1) as (rows & bounds & xx & AN & FE & X1). destruct (SOL _ _ _ _ J C2 IE2 I2 IL2) as (rows' & bounds' & xx' & AN' & _ & X2). destruct (answer_fun _ _ _ _ _ _ _ AN AN') as [<- <-].
      destruct AN as [RW _]. destruct (lp_all_rows_spec s _ _ _ RW pre g post gx e1 e2 gy FS EG) as (p' & q' & j & P' & Q' & -> & IR). rewrite I1 in P'. rewrite I2 in Q'. assert (p' = p) by congruence. assert (q' = q) by congruence. subst.
      rewrite (dist2_sym p q). destruct FE as (_ & _ & RX). apply (RX _ _ _ _ _ IR X1 X2).
  - intros i d p1 p p2 I NX PV C CO.
    pose proof (KEY _ I) as IK. rewrite <- K in IK. apply in_map_iff in IK as (e & EI & IE). destruct (CT i d e I C IE EI) as (r' & L & -> & T). destruct (AR _ _ L) as (r & e' & A1 & A2 & A3 & _ & A5). assert (e' = e) by (apply (nodup_map_inj e_i (concat gs)); auto; congruence). subst e'.
    destruct A5 as [[SG (q1 & q2 & q3 & G & TM)]|(rad1 & rows & bounds & xx & j' & _ & _ & _ & _ & _ & J1 & _)].
    + apply get_points_corner in G. rewrite EI in G. destruct (corner_fun _ _ _ _ _ _ _ _ CO G) as (<- & <- & <-).
      assert (M : r' / tan (e_a e) <= Rmin (point_distance2 p1 p) (point_distance2 p p2)).
      { destruct (entry_ok s gs SS CUTS GS e IE) as (A & r0 & w1 & wi & w2 & IR & _ & _ & _ & _ & D). rewrite EI in IR. assert (r0 = r) by (apply in_lookup in IR, A1; auto; congruence). subst r0.
        destruct (Rltb _ (e_d e)) eqn:LT in TM; rewrite TM.
        - apply Rle_trans with (Rmin (point_distance2 p1 p) (point_distance2 p p2) * tan (e_a e) / tan (e_a e)); [|right; field; lra]. apply Rmult_le_compat_r; [left; apply Rinv_0_lt_compat, T|apply Rmin_r].
        - apply Rltb_false in LT. rewrite <- D. lra. }
      split; eapply Rle_trans; [exact M|apply Rmin_l|exact M|apply Rmin_r].
    + exfalso. apply nth_error_In in J1. apply in_concat in J1 as (g & IG & I1). apply filter_In in IG as [IG LG]. rewrite Forall_forall in RR. specialize (RR _ IG). apply in_split in I1 as (x & y & ->).
      assert (INK : forall e0, In e0 (x ++ e :: y) -> In (e_i e0) (map fst (rrad s))) by (intros e0 I0; rewrite <- K; apply in_map, in_concat; eauto).
      destruct y as [|e2 y].
      * destruct x as [|z x] using rev_ind; [discriminate|]. clear IHx. rewrite <- app_assoc in RR. pose proof (RR x z e [] eq_refl) as Q. apply (PV (e_i z)); [congruence|]. apply INK. apply in_or_app. left. apply in_or_app. cbn; auto.
      * pose proof (RR x e e2 y eq_refl) as Q. apply NX. rewrite <- EI, <- Q. apply INK. apply in_or_app. cbn; auto.
Qed.
