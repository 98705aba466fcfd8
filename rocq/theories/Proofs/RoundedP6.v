From Coq Require Import Reals Lra List Lia Sorted.
From Verif.Model Require Import Base RBase Vec Frame Geometry Curves Edges Arcs Rounded.
From Verif.Spec Require Import VecSpec CurvesSpec RoundedSpec.
From Verif.Proofs Require Import VecP RoundedP RoundedP2 RoundedP3 RoundedP4 RoundedP5.
Import ListNotations.
Open Scope R_scope.

Lemma lookup_set i r l k : lookup k (set_radius i r l) = if (i =? k)%nat then option_map (fun _ => r) (lookup k l) else lookup k l.
Proof.
  induction l as [|[j b] l IH]; cbn; [destruct (i =? k)%nat; auto|]. destruct (j =? i)%nat eqn:E1; cbn.
  - apply Nat.eqb_eq in E1. subst j. destruct (i =? k)%nat; auto.
  - destruct (j =? k)%nat eqn:E2; [|auto]. apply Nat.eqb_eq in E2. subst j. rewrite Nat.eqb_sym, E1. auto.
Qed.
Lemma lookup_del i l k : lookup k (del_radius i l) = if (i =? k)%nat then None else @lookup R k l.
Proof.
  unfold del_radius. induction l as [|[j b] l IH]; cbn; [destruct (i =? k)%nat; auto|]. destruct (j =? i)%nat eqn:E1; cbn.
  - apply Nat.eqb_eq in E1. subst j. rewrite IH. destruct (i =? k)%nat; auto.
  - destruct (j =? k)%nat eqn:E2; [|auto]. apply Nat.eqb_eq in E2. subst j. rewrite Nat.eqb_sym, E1. auto.
Qed.
Lemma keys_set i r l : map fst (set_radius i r l) = map fst l.
Proof. unfold set_radius. induction l as [|[j b] l IH]; cbn; auto. rewrite IH. destruct (j =? i)%nat eqn:E; auto. apply Nat.eqb_eq in E. subst. auto. Qed.
Lemma sub_del i l : NoDup (map fst l) -> NoDup (map fst (del_radius i l)).
Proof.
  unfold del_radius. induction l as [|[j b] l IH]; cbn; auto. intros N. inversion N as [|? ? A B]; subst. destruct (j =? i)%nat; cbn; auto. constructor; auto.
  intros I. apply A. apply in_map_iff in I as (x & <- & I). apply filter_In in I as [I _]. apply in_map. auto.
Qed.
Lemma nodup_solution rad ex : NoDup (map fst rad) -> NoDup (map fst (set_solution rad ex)).
Proof. destruct ex as [e x]. unfold set_solution. destruct (Rltb _ _); [rewrite keys_set; auto|apply sub_del]. Qed.
Lemma nodup_solutions l rad : NoDup (map fst rad) -> NoDup (map fst (fold_left set_solution l rad)).
Proof. revert rad. induction l as [|e l IH]; cbn; auto. intros rad N. apply IH, nodup_solution, N. Qed.
(** the groups of one point *)
Definition one_step (s : rls) (rad : list (nat * R)) (g : list entry) : res (list (nat * R)) := match g with [e] => adapt_single s rad e | _ => Ok rad end.
Definition tame (s : rls) (e : entry) (r r' : R) : Prop :=
  exists p1 p2 p3, get_points s (e_i e) = Ok (p1, p2, p3) /\ r' = (if Rltb (Rmin (point_distance2 p1 p2) (point_distance2 p2 p3)) (e_d e) then Rmin r (Rmin (point_distance2 p1 p2) (point_distance2 p2 p3) * tan (e_a e)) else r).
Lemma one_step_spec s rad g rad' : one_step s rad g = Ok rad' -> map fst rad' = map fst rad /\
  forall k, match g with [e] => if (e_i e =? k)%nat then lookup k rad' = None \/ exists r r', lookup k rad = Some r /\ lookup k rad' = Some r' /\ tame s e r r' else lookup k rad' = lookup k rad | _ => lookup k rad' = lookup k rad end.
Proof.
  unfold one_step. destruct g as [|e [|e' g]]; try (intros H; apply Ok_inj in H; subst; auto; fail).
  unfold adapt_single. intros H. apply bind_ok in H as ([[p1 p2] p3] & P & H). cbv zeta in H. destruct (Rltb _ (e_d e)) eqn:LT.
  - destruct (lookup (e_i e) rad) as [r|] eqn:L; [|discriminate]. apply Ok_inj in H. subst rad'. split; [apply keys_set|]. intros k. rewrite lookup_set. destruct (e_i e =? k)%nat eqn:E; auto.
    apply Nat.eqb_eq in E. subst k. rewrite L. right. do 2 eexists. split; [reflexivity|]. split; [reflexivity|]. exists p1, p2, p3. split; auto. rewrite LT. auto.
  - apply Ok_inj in H. subst rad'. split; auto. intros k. destruct (e_i e =? k)%nat eqn:E; auto. apply Nat.eqb_eq in E. subst k. destruct (lookup (e_i e) rad) as [r|] eqn:L; auto. right. exists r, r. split; auto. split; auto. exists p1, p2, p3. split; auto. rewrite LT. auto.
Qed.
Lemma singles_spec s gs : forall rad rad', foldM (one_step s) gs rad = Ok rad' -> NoDup (map e_i (concat gs)) -> map fst rad' = map fst rad /\
  (forall k r', lookup k rad' = Some r' -> exists r, lookup k rad = Some r /\ ((r' = r /\ (forall e, In [e] gs -> e_i e <> k)) \/ exists e, In [e] gs /\ e_i e = k /\ tame s e r r')).
Proof.
  induction gs as [|g gs IH]; cbn [foldM]; intros rad rad' H N.
  - apply Ok_inj in H. subst. split; auto. intros k r' L. exists r'. auto.
  - apply bind_ok in H as (rad1 & H1 & H2). apply one_step_spec in H1 as [K1 S1]. cbn [concat] in N. rewrite map_app in N.
    assert (N2 : NoDup (map e_i (concat gs))) by (clear - N; induction (map e_i g); cbn in N; auto; inversion N; auto).
    destruct (IH _ _ H2 N2) as [K2 S2]. split; [congruence|]. intros k r' L. destruct (S2 _ _ L) as (r1 & L1 & C). specialize (S1 k).
    assert (D : forall e e', In [e] (g :: gs) -> In e' g -> In [e] gs -> e_i e <> e_i e').
    { intros e e' _ I' I Q. assert (IC : In (e_i e) (map e_i (concat gs))) by (apply in_map, in_concat; exists [e]; cbn; auto). clear - N I' IC Q. induction g as [|a g IH]; [destruct I'|]. cbn in N. inversion N as [|? ? A B]; subst. destruct I' as [->|I']; [|auto]. apply A. apply in_or_app. right. rewrite <- Q. auto. }
    destruct g as [|e [|e' g]].
    + rewrite S1 in L1. exists r1. split; auto. destruct C as [(-> & C)|(e & I & C)]; [left|right; exists e; cbn; auto]. split; auto. intros e [Z|I]; [discriminate|auto].
    + destruct (e_i e =? k)%nat eqn:E.
      * apply Nat.eqb_eq in E. destruct S1 as [Z|(r & r1' & LR & LR' & T)]; [congruence|]. assert (r1' = r1) by congruence. subst r1'. exists r. split; auto. right. destruct C as [(-> & C)|(e' & I & Q & C)].
        -- exists e. cbn. auto.
        -- exfalso. apply (D e' e); cbn; auto. congruence.
      * rewrite S1 in L1. exists r1. split; auto. apply Nat.eqb_neq in E. destruct C as [(-> & C)|(e' & I & C)]; [left|right; exists e'; cbn; auto]. split; auto. intros e' [Z|I]; [inversion Z; subst; auto|auto].
    + rewrite S1 in L1. exists r1. split; auto. destruct C as [(-> & C)|(e1 & I & C)]; [left|right; exists e1; cbn; auto]. split; auto. intros e1 [Z|I]; [discriminate|auto].
Qed.
(** the answers of the linear program *)
Lemma solutions_spec l : forall rad, NoDup (map (fun ex => e_i (fst ex)) l) -> forall k r', lookup k (fold_left set_solution l rad) = Some r' ->
  (lookup k rad = Some r' /\ ~ In k (map (fun ex => e_i (fst ex)) l)) \/
  (exists r e x, lookup k rad = Some r /\ In (e, x) l /\ e_i e = k /\ r' = x * tan (e_a e) /\ / 10 ^ 10 < r').
Proof.
  induction l as [|[e x] l IH]; cbn [fold_left map fst]; intros rad N k r' L; [left; cbn; auto|]. inversion N as [|? ? A B]; subst.
  assert (ST : lookup k (set_solution rad (e, x)) = if (e_i e =? k)%nat then if Rltb (/ 10 ^ 10) (x * tan (e_a e)) then option_map (fun _ => x * tan (e_a e)) (lookup k rad) else None else lookup k rad).
  { unfold set_solution. destruct (Rltb _ _); [rewrite lookup_set|rewrite lookup_del]; destruct (e_i e =? k)%nat; auto. }
  destruct (IH _ B k r' L) as [[L1 NI]|(r & e1 & x1 & L1 & I & Q & C)].
  - rewrite ST in L1. destruct (e_i e =? k)%nat eqn:E.
    + apply Nat.eqb_eq in E. destruct (Rltb _ _) eqn:LT; [|discriminate]. apply Rltb_spec in LT. destruct (lookup k rad) as [r|] eqn:LR; [|discriminate]. cbn in L1. inversion L1. right. exists r, e, x. cbn. repeat split; auto.
    + left. split; auto. apply Nat.eqb_neq in E. cbn. tauto.
  - rewrite ST in L1. destruct (e_i e =? k)%nat eqn:E.
    + apply Nat.eqb_eq in E. exfalso. apply A. rewrite E, <- Q. apply (in_map (fun ex => e_i (fst ex))) in I. exact I.
    + right. exists r, e1, x1. cbn. auto.
Qed.
Lemma lp_rows_spec s g : forall f rows, lp_rows s f g = Ok rows -> forall x e1 e2 y, g = x ++ e1 :: e2 :: y ->
  exists p q, nth_error (rpts s) (e_i e1) = Some p /\ nth_error (rpts s) (e_i e2) = Some q /\ In ((f + length x)%nat, S (f + length x), norm2 (sub2 q p)) rows.
Proof.
  induction g as [|a g IH]; intros f rows H x e1 e2 y Q; [destruct x; discriminate|].
  destruct g as [|b g]; [destruct x as [|? [|]]; discriminate|]. cbn [lp_rows] in H. apply bind_ok in H as (p & P & H). apply bind_ok in H as (q & Q' & H). apply bind_ok in H as (l & L & H). apply Ok_inj in H. subst rows.
  destruct x as [|z x].
  - cbn in Q. injection Q as -> -> _. apply geti_ok in P, Q'. exists p, q. rewrite Nat.add_0_r. cbn; auto.
  - cbn in Q. injection Q as -> Q. destruct (IH _ _ L _ _ _ _ Q) as (p' & q' & A & B & C). exists p', q'. split; auto. split; auto. cbn [length]. replace (f + S (length x))%nat with (S f + length x)%nat by lia. cbn; auto.
Qed.
Lemma lp_all_rows_spec s gs : forall f rows, lp_all_rows s f gs = Ok rows -> forall pre g post x e1 e2 y, gs = pre ++ g :: post -> g = x ++ e1 :: e2 :: y ->
  exists p q j, nth_error (rpts s) (e_i e1) = Some p /\ nth_error (rpts s) (e_i e2) = Some q /\ j = (length (concat pre) + length x)%nat /\ In ((f + j)%nat, S (f + j), norm2 (sub2 q p)) rows.
Proof.
  induction gs as [|g0 gs IH]; intros f rows H pre g post x e1 e2 y G Q; [destruct pre; discriminate|].
  cbn [lp_all_rows] in H. apply bind_ok in H as (a & A & H). apply bind_ok in H as (b & B & H). apply Ok_inj in H. subst rows. destruct pre as [|h pre].
  - cbn in G. injection G as -> _. destruct (lp_rows_spec _ _ _ _ A _ _ _ _ Q) as (p & q & P1 & P2 & I). exists p, q, (length x). cbn. split; auto. split; auto. split; auto. apply in_or_app; auto.
  - cbn in G. injection G as -> G. destruct (IH _ _ B _ _ _ _ _ _ _ G Q) as (p & q & j & P1 & P2 & -> & I). exists p, q, (length (h ++ concat pre) + length x)%nat. split; auto. split; auto. split; [auto|]. rewrite app_length. apply in_or_app. right. replace (f + (length h + length (concat pre) + length x))%nat with (f + length h + (length (concat pre) + length x))%nat by lia. exact I.
Qed.
