From Coq Require Import Reals Lra List Lia Sorted.
From Verif.Model Require Import Base RBase Vec Frame Geometry Curves Edges Arcs Rounded.
From Verif.Spec Require Import VecSpec CurvesSpec RoundedSpec.
From Verif.Proofs Require Import VecP RoundedP RoundedP2 RoundedP3 RoundedP4.
Import ListNotations.
Open Scope R_scope.

Definition fits (s : rls) (e1 e2 : entry) : Prop :=
  S (e_i e1) <> e_i e2 \/ exists p q, nth_error (rpts s) (e_i e1) = Some p /\ nth_error (rpts s) (e_i e2) = Some q /\ e_d e1 + e_d e2 <= norm2 (sub2 q p).
Definition together (gs : list (list entry)) (e1 e2 : entry) : Prop := exists g x y, In g gs /\ g = x ++ e1 :: e2 :: y.
Definition run (g : list entry) : Prop := forall x e1 e2 y, g = x ++ e1 :: e2 :: y -> e_i e2 = S (e_i e1).
Lemma run_snoc g last e : run (g ++ [last]) -> e_i e = S (e_i last) -> run ((g ++ [last]) ++ [e]).
Proof.
  intros H E x e1 e2 y Q. destruct y as [|y0 y] using rev_ind.
  - rewrite <- app_assoc in Q. cbn in Q. change (x ++ [e1; e2]) with (x ++ [e1] ++ [e2]) in Q. rewrite app_assoc in Q. change [last; e] with ([last] ++ [e]) in Q. rewrite app_assoc in Q. apply app_inj_tail in Q as [Q ->]. apply app_inj_tail in Q as [_ ->]. auto.
  - rewrite app_comm_cons, (app_comm_cons _ _ e1), app_assoc in Q. apply app_inj_tail in Q as [Q _]. eapply H; eauto.
Qed.
Lemma run_one e : run [e].
Proof. intros [|z1 [|z2 z3]] e1 e2 y Q; discriminate. Qed.
Lemma group_loop_spec s keys : forall group last gs, group_loop s (last :: group) last keys = Ok gs -> run (rev (last :: group)) ->
  exists es, mapM (features s) keys = Ok es /\ concat gs = rev (last :: group) ++ es /\ Forall (fun g => g <> []) gs /\
  (exists g0 tl, gs = (rev (last :: group) ++ g0) :: tl) /\ Forall run gs /\
  (forall pre e1 e2 post, last :: es = pre ++ e1 :: e2 :: post -> fits s e1 e2 \/ (radapt s = true /\ together gs e1 e2)).
Proof.
  induction keys as [|i keys IH]; intros group last gs H RN; cbn [group_loop] in H.
  - apply Ok_inj in H. subst gs. exists []. split; [auto|]. split; [cbn [concat]; rewrite !app_nil_r; auto|]. split; [constructor; auto; cbn [rev]; intros Z; apply app_eq_nil in Z as [_ Z]; discriminate|].
    split; [exists [], []; rewrite app_nil_r; auto|]. split; [constructor; auto|]. intros [|z1 [|z2 z3]] e1 e2 post Q; discriminate.
  - apply bind_ok in H as (e & E & H). assert (EI : e_i e = i). { unfold features in E. apply bind_ok in E as ([[[[? ?] ?] ?] ?] & _ & E). apply Ok_inj in E. subst e. auto. }
    assert (NEW : forall g, group_loop s [e] e keys = Ok g -> fits s last e -> gs = rev (last :: group) :: g -> exists es, mapM (features s) (i :: keys) = Ok es /\ concat gs = rev (last :: group) ++ es /\ Forall (fun g => g <> []) gs /\ (exists g0 tl, gs = (rev (last :: group) ++ g0) :: tl) /\ Forall run gs /\
      (forall pre e1 e2 post, last :: es = pre ++ e1 :: e2 :: post -> fits s e1 e2 \/ (radapt s = true /\ together gs e1 e2))).
    { intros g G FT ->. apply IH in G as (es & ES & CC & NE & _ & RR & AD); [|apply run_one]. exists (e :: es). split; [cbn [mapM]; rewrite E; cbn [bind]; rewrite ES; auto|].
      split; [cbn [concat]; rewrite CC; auto|]. split; [constructor; auto; cbn [rev]; intros Z; apply app_eq_nil in Z as [_ Z]; discriminate|]. split; [exists [], g; rewrite app_nil_r; auto|]. split; [constructor; auto|].
      intros [|x pre] e1 e2 post Q; cbn in Q; [injection Q as <- <- _; left; auto|injection Q as _ Q]. destruct (AD _ _ _ _ Q) as [|(A & gg & u & v & U & V)]; [left; auto|right; split; auto; exists gg, u, v; split; cbn; auto]. }
    destruct (e_i last + 1 =? i)%nat eqn:Q.
    + apply Nat.eqb_eq in Q. apply bind_ok in H as (p1 & P1 & H). apply bind_ok in H as (p2 & P2 & H).
      assert (P1' : nth_error (rpts s) (e_i last) = Some p1) by (destruct i as [|i']; [lia|]; unfold getpred in P1; apply geti_ok in P1; replace (e_i last) with i' by lia; auto). apply geti_ok in P2.
      destruct (Rleb _ _) eqn:LE.
      * apply Rleb_spec in LE. apply bind_ok in H as (g & G & H). apply Ok_inj in H. apply (NEW g G); auto. right. exists p1, p2. rewrite EI. auto.
      * destruct (radapt s) eqn:RA; [|discriminate]. apply IH in H as (es & ES & CC & NE & (g0 & tl & GS) & RR & AD); [|cbn [rev]; apply run_snoc; [exact RN|lia]].
        exists (e :: es). split; [cbn [mapM]; rewrite E; cbn [bind]; rewrite ES; auto|]. split; [rewrite CC; cbn [rev]; rewrite <- !app_assoc; auto|]. split; auto. split; [exists (e :: g0), tl; rewrite GS; cbn [rev]; rewrite <- !app_assoc; auto|]. split; auto.
        intros [|x pre] e1 e2 post QQ; cbn in QQ; [injection QQ as <- <- _|injection QQ as _ QQ; apply (AD _ _ _ _ QQ)]. right. split; auto. exists (rev (e :: last :: group) ++ g0), (rev group), g0. split; [rewrite GS; cbn; auto|]. cbn [rev]. rewrite <- !app_assoc. auto.
    + apply Nat.eqb_neq in Q. apply bind_ok in H as (g & G & H). apply Ok_inj in H. apply (NEW g G); auto. left. lia.
Qed.
Lemma groups_spec s gs : groups s = Ok gs -> exists es, mapM (features s) (map fst (rrad s)) = Ok es /\ concat gs = es /\ Forall (fun g => g <> []) gs /\ Forall run gs /\
  (forall pre e1 e2 post, es = pre ++ e1 :: e2 :: post -> fits s e1 e2 \/ (radapt s = true /\ together gs e1 e2)).
Proof.
  unfold groups. destruct (map fst (rrad s)) as [|i keys] eqn:K.
  - intros H. apply Ok_inj in H. subst gs. exists []. repeat split; auto. intros [|z1 [|z2 z3]] e1 e2 post Q; discriminate.
  - intros H. apply bind_ok in H as (e & E & H). apply group_loop_spec in H as (es & ES & CC & NE & _ & RR & AD); [|apply run_one]. exists (e :: es). split; [cbn [mapM]; rewrite E; cbn [bind]; rewrite ES; auto|]. repeat split; auto.
Qed.
(** consecutive keys of a sorted list are neighbours *)
Lemma sorted_next l i : StronglySorted lt l -> In i l -> In (S i) l -> exists x y, l = x ++ i :: S i :: y.
Proof.
  induction l as [|a l IH]; cbn; [tauto|]. intros H I J. apply StronglySorted_inv in H as [H F]. rewrite Forall_forall in F. destruct I as [<- |I].
  - destruct J as [J|J]; [lia|]. destruct l as [|b l]; [destruct J|]. exists [], l. cbn. pose proof (F b (or_introl eq_refl)). destruct J as [->|J]; auto. apply StronglySorted_inv in H as [_ F']. rewrite Forall_forall in F'. specialize (F' _ J). lia.
  - destruct J as [J|J]; [specialize (F _ I); lia|]. destruct (IH H I J) as (x & y & ->). exists (a :: x), y. auto.
Qed.
Lemma features_i s i e : features s i = Ok e -> e_i e = i.
Proof. unfold features. intros E. apply bind_ok in E as ([[[[? ?] ?] ?] ?] & _ & E). apply Ok_inj in E. subst e. auto. Qed.
Lemma mapM_split {A B} (f : A -> res B) x : forall y r, mapM f (x ++ y) = Ok r -> exists r1 r2, r = r1 ++ r2 /\ mapM f x = Ok r1 /\ mapM f y = Ok r2 /\ length r1 = length x.
Proof.
  induction x as [|a x IH]; cbn [app mapM]; intros y r H; [exists [], r; auto|]. apply bind_ok in H as (b & B1 & H). apply bind_ok in H as (r' & R1 & H). apply Ok_inj in H. subst r. apply IH in R1 as (r1 & r2 & -> & E1 & E2 & L). exists (b :: r1), r2. rewrite B1. cbn [bind]. rewrite E1. cbn. auto.
Qed.
Lemma sorted_nodup l : StronglySorted lt l -> NoDup l.
Proof. induction 1 as [|a l H IH F]; constructor; auto. intros I. rewrite Forall_forall in F. specialize (F _ I). lia. Qed.
Lemma cut_entry s i d e : NoDup (map fst (rrad s)) -> In i (map fst (rrad s)) -> cut s (rrad s) i d -> features s i = Ok e ->
  e_d e = d /\ 0 < e_a e < PI / 2 /\ exists r p1 pi p2, In (i, r) (rrad s) /\ 0 < r /\ corner s i p1 pi p2 /\ half_angle p1 pi p2 (e_a e) /\ / 10 ^ 6 < 2 * cos (e_a e) /\ d = r / tan (e_a e).
Proof.
  intros N I [[A _]|(r & p1 & pi & p2 & a & IR & Hr & C & H & W & ->)] E; [tauto|].
  destruct (cut_features s i r p1 pi p2 a (in_lookup _ _ _ N IR) Hr C H W) as (c & p3 & q & p4 & F & _). unfold features in E. rewrite F in E. cbn [bind] in E. apply Ok_inj in E. subst e. unfold e_d, e_a; cbn [fst snd]. split; auto. split; [apply H|]. exists r, p1, pi, p2. auto 10.
Qed.
(** without adapt_radius: overlapping roundings of two consecutive corners are refused *)
Lemma check_sound lp s rad l i d1 d2 p q : StronglySorted lt (map fst (rrad s)) -> radapt s = false -> rounded_primitives lp s = Ok (rad, l) ->
  In i (map fst (rrad s)) -> In (S i) (map fst (rrad s)) -> cut s (rrad s) i d1 -> cut s (rrad s) (S i) d2 ->
  nth_error (rpts s) i = Some p -> nth_error (rpts s) (S i) = Some q -> rad = rrad s /\ d1 + d2 <= point_distance2 p q.
Proof.
  intros SS RA H I J C1 C2 P Q. pose proof (sorted_nodup _ SS) as N. unfold rounded_primitives in H. apply bind_ok in H as (gs & G & H). rewrite RA in H. cbn [bind] in H.
  split. { apply bind_ok in H as (arcs & _ & H). apply bind_ok in H as (l' & _ & H). apply Ok_inj in H. apply pair_equal_spec in H as [-> _]. auto. }
  apply groups_spec in G as (es & ES & CC & _ & _ & AD). destruct (sorted_next _ _ SS I J) as (x & y & K). rewrite K in ES.
  apply mapM_split in ES as (r1 & r2 & -> & _ & ES & _). cbn [mapM] in ES. apply bind_ok in ES as (e1 & E1 & ES). apply bind_ok in ES as (r3 & ES & Z). apply Ok_inj in Z. subst r2. apply bind_ok in ES as (e2 & E2 & ES). apply bind_ok in ES as (r4 & ES & Z). apply Ok_inj in Z. subst r3.
  destruct (cut_entry _ _ _ _ N I C1 E1) as (D1 & _). destruct (cut_entry _ _ _ _ N J C2 E2) as (D2 & _). pose proof (features_i _ _ _ E1) as I1. pose proof (features_i _ _ _ E2) as I2.
  destruct (AD _ _ _ _ eq_refl) as [[Z|(p' & q' & P' & Q' & L)]|[Z _]]; [congruence| |congruence].
  rewrite I1 in P'. rewrite I2 in Q'. assert (p' = p) by congruence. assert (q' = q) by congruence. subst. rewrite dist2_sym. exact L.
Qed.
Lemma group_loop_err s keys : forall group last, (forall i, In i keys -> exists e, features s i = Ok e) -> (forall i, In i keys -> (0 < i < length (rpts s))%nat) -> radapt s = false ->
  (exists pre i post e1 e2 p q, e_i last :: keys = pre ++ i :: S i :: post /\ (pre = [] -> e1 = last) /\ (pre <> [] -> features s i = Ok e1) /\ features s (S i) = Ok e2 /\ nth_error (rpts s) i = Some p /\ nth_error (rpts s) (S i) = Some q /\ norm2 (sub2 q p) < e_d e1 + e_d e2) ->
  group_loop s group last keys = Err ValueError.
Proof.
  induction keys as [|k keys IH]; intros group last FE LB RA (pre & i & post & e1 & e2 & p & q & K & P0 & P1 & E2 & P & Q & L).
  - destruct pre as [|? [|]]; discriminate.
  - cbn [group_loop]. destruct (FE k (or_introl eq_refl)) as (e & E). rewrite E. cbn [bind]. pose proof (features_i _ _ _ E) as EI.
    destruct pre as [|x pre].
    + cbn in K. injection K as K1 K2 _. rewrite (P0 eq_refl) in L. assert (Q2 : Ok e2 = Ok e) by (rewrite <- E2, <- E, K2; auto). apply Ok_inj in Q2. subst e2. rewrite (proj2 (Nat.eqb_eq _ _)) by lia.
      rewrite K2. cbn [getpred]. rewrite (proj2 (geti_ok _ _ _) P). cbn [bind]. rewrite (proj2 (geti_ok _ _ _) Q). cbn [bind]. rewrite (proj2 (Rleb_false _ _) L), RA. reflexivity.
    + cbn in K. injection K as _ K1.
      assert (N : forall g, group_loop s g e keys = Err ValueError).
      { intros g. apply IH; auto. { intros j Hj. apply FE. cbn; auto. } { intros j Hj. apply LB. cbn; auto. } exists pre, i, post, e1, e2, p, q. split; [rewrite EI; auto|]. split.
        - intros ->. cbn in K1. injection K1 as K1 _. rewrite <- K1 in P1. rewrite P1 in E by discriminate. apply Ok_inj in E. auto.
        - split; [intros _; apply P1; discriminate|auto 10]. }
      specialize (LB k (or_introl eq_refl)).
      destruct (e_i last + 1 =? k)%nat eqn:Z.
      * assert (exists a, getpred (rpts s) k = Ok a) as (a & A). { unfold getpred. destruct k as [|k']; [lia|]. unfold geti. destruct (nth_error (rpts s) k') eqn:W; eauto. apply nth_error_None in W. lia. }
        assert (exists b, geti (rpts s) k = Ok b) as (b & B). { unfold geti. destruct (nth_error (rpts s) k) eqn:W; eauto. apply nth_error_None in W. lia. }
        rewrite A. cbn [bind]. rewrite B. cbn [bind]. destruct (Rleb _ _); [rewrite N; auto|rewrite RA; auto].
      * rewrite N. auto.
Qed.
Lemma check_complete lp s i d1 d2 p q : StronglySorted lt (map fst (rrad s)) -> radapt s = false -> (forall j, In j (map fst (rrad s)) -> exists d, cut s (rrad s) j d) ->
  In i (map fst (rrad s)) -> In (S i) (map fst (rrad s)) -> cut s (rrad s) i d1 -> cut s (rrad s) (S i) d2 ->
  nth_error (rpts s) i = Some p -> nth_error (rpts s) (S i) = Some q -> point_distance2 p q < d1 + d2 -> rounded_primitives lp s = Err ValueError.
Proof.
  intros SS RA FC I J C1 C2 P Q L. pose proof (sorted_nodup _ SS) as N. unfold rounded_primitives. enough (G : groups s = Err ValueError) by (rewrite G; auto).
  assert (FE : forall j, In j (map fst (rrad s)) -> (exists e, features s j = Ok e) /\ (j < length (rpts s))%nat).
  { intros j Hj. destruct (FC j Hj) as (d & [[Z _]|(r & p1 & pi & p2 & a & IR & Hr & C & H & W & _)]); [tauto|]. split; [|apply C]. destruct (cut_features s j r p1 pi p2 a (in_lookup _ _ _ N IR) Hr C H W) as (c & p3 & q3 & p4 & F & _). unfold features. rewrite F. cbn. eauto. }
  unfold groups. destruct (sorted_next _ _ SS I J) as (x & y & K). pose proof K as K'. destruct (map fst (rrad s)) as [|k keys] eqn:KS; [destruct I|].
  destruct (FE k (or_introl eq_refl)) as ((e & E) & _). rewrite E. cbn [bind].
  destruct (FE i I) as ((e1 & E1) & _). destruct (FE (S i) J) as ((e2 & E2) & _). rewrite <- KS in *.
  destruct (cut_entry _ _ _ _ N I C1 E1) as (D1 & _). destruct (cut_entry _ _ _ _ N J C2 E2) as (D2 & _).
  rewrite KS in SS. apply StronglySorted_inv in SS as [_ F]. rewrite Forall_forall in F.
  apply group_loop_err; auto.
  - intros j Hj. apply FE. rewrite KS. cbn; auto.
  - intros j Hj. split; [specialize (F _ Hj); lia|]. apply FE. rewrite KS. cbn; auto.
  - exists x, i, y, e1, e2, p, q. rewrite (features_i _ _ _ E). rewrite KS in K'. split; [exact K'|]. split.
    + intros ->. cbn in K'. injection K' as K' _. rewrite K' in E. rewrite E in E1. apply Ok_inj in E1. auto.
    + split; [auto|]. split; auto. split; auto. split; auto. rewrite D1, D2. rewrite dist2_sym in L. exact L.
Qed.
