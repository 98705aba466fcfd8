From Coq Require Import Reals Lra List Lia.
From Verif.Model Require Import Base RBase Vec Frame Geometry Curves Edges Arcs Rounded.
From Verif.Spec Require Import VecSpec RoundedSpec.
From Verif.Proofs Require Import VecP.
Import ListNotations.
Open Scope R_scope.

Definition TOL := / 10 ^ 6.
Lemma tol_pos : 0 <= TOL. Proof. left. apply Rinv_0_lt_compat, pow_lt. lra. Qed.
Lemma dist_self p : point_distance2 p p = 0. Proof. apply dist2_zero. reflexivity. Qed.
Lemma bind_ok {A B} (r : res A) (f : A -> res B) b : bind r f = Ok b -> exists a, r = Ok a /\ f a = Ok b.
Proof. destruct r; cbn; [eauto|discriminate]. Qed.
Lemma seg_ok p q l : seg p q = Ok l -> l = [PSeg (p, q)] /\ p <> q.
Proof.
  unfold seg, segment2. destruct (eqb2 p q) eqn:E; cbn [bind]; [discriminate|]. intros H; apply Ok_inj in H. subst l. split; auto.
  intros ->. unfold eqb2 in E. rewrite !Reqb_refl in E. discriminate.
Qed.
Lemma geti_ok {A} (l : list A) i a : geti l i = Ok a <-> nth_error l i = Some a.
Proof. unfold geti. destruct (nth_error l i); split; intros H; try discriminate; [apply Ok_inj in H; subst; auto|inversion H; auto]. Qed.

(** the start and the end of a non empty list of primitives *)
Definition first_start (l : list prim) (p : vec2) : Prop := match l with a :: _ => p = p_start a | [] => False end.
Definition last_end (l : list prim) (p : vec2) : Prop := exists k a, l = k ++ [a] /\ p = p_end a.
Lemma last_end_fun l p q : last_end l p -> last_end l q -> p = q.
Proof. intros (k & a & -> & ->) (k' & b & E & ->). apply app_inj_tail in E as [_ ->]. auto. Qed.

Lemma chained_app l1 l2 e s t : chained t l1 -> chained t l2 -> last_end l1 e -> first_start l2 s -> point_distance2 e s <= t -> chained t (l1 ++ l2).
Proof.
  intros C1 C2 (k & a & E & ->) F D i x y. destruct l2 as [|b l2]; [destruct F|]. cbn in F. subst s.
  destruct (Nat.lt_ge_cases (S i) (length l1)) as [L|L].
  - rewrite !nth_error_app1 by lia. apply C1.
  - destruct (Nat.eq_dec (S i) (length l1)) as [Q|Q].
    + rewrite nth_error_app1 by lia. rewrite nth_error_app2 by lia. rewrite Q, Nat.sub_diag. subst l1. rewrite app_length in Q. cbn in Q. replace i with (length k) by lia. rewrite nth_error_app2 by lia. rewrite Nat.sub_diag. cbn. intros X Y. inversion X; inversion Y; subst. auto.
    + rewrite !nth_error_app2 by lia. replace (S i - length l1)%nat with (S (i - length l1)) by lia. apply C2.
Qed.
(** one side *)
Lemma side_spec pts arcs check i j l : side_primitives pts arcs check i j = Ok l ->
  exists ni nj, meets pts arcs i ni /\ meets pts arcs j nj /\
  ((l = [] /\ lookup i arcs = None /\ (exists a, lookup j arcs = Some a) /\ point_distance2 ni nj <= TOL) \/
   (exists e, chained (2 * TOL) l /\ first_start l ni /\ last_end l e /\ point_distance2 e nj <= TOL /\ (check = false -> lookup j arcs = None -> e = nj))).
Proof.
  pose proof tol_pos as TP.
  assert (SU : forall p q k, seg_unless_close p q = Ok k -> (k = [] /\ point_distance2 p q <= TOL) \/ k = [PSeg (p, q)]).
  { intros p q k. unfold seg_unless_close. destruct (is_close2 p q (/ 10 ^ 6)) eqn:E; intros H.
    - apply Ok_inj in H. subst k. left. split; auto. apply is_close2_spec in E; auto.
    - apply seg_ok in H as [-> _]. auto. }
  unfold side_primitives, meets. destruct (lookup i arcs) as [a1|] eqn:LI.
  - intros H. apply bind_ok in H as (r & H & E). apply Ok_inj in E. subst l.
    assert (ONE : forall nj, point_distance2 (aen a1) nj <= TOL -> r = [] \/ r = [PSeg (aen a1, nj)] -> (check = false -> lookup j arcs = None -> r = [PSeg (aen a1, nj)]) ->
      exists e, chained (2 * TOL) (PArc a1 :: r) /\ first_start (PArc a1 :: r) (ast a1) /\ last_end (PArc a1 :: r) e /\ point_distance2 e nj <= TOL /\ (check = false -> lookup j arcs = None -> e = nj)).
    { intros nj D [-> | ->] CK.
      - exists (aen a1). split; [intros [|?] x y X Y; cbn in *; try discriminate; destruct n; discriminate|]. split; [reflexivity|]. split; [exists [], (PArc a1); auto|]. split; auto. intros A B. specialize (CK A B). discriminate.
      - exists nj. split; [intros [|[|?]] x y X Y; cbn in *; try discriminate|]. { inversion X; inversion Y; subst. cbn. rewrite dist_self. lra. } split; [reflexivity|]. split; [exists [PArc a1], (PSeg (aen a1, nj)); auto|]. rewrite dist_self. split; [lra|auto]. }
    assert (TWO : forall nj, r = [PSeg (aen a1, nj)] ->
      exists e, chained (2 * TOL) (PArc a1 :: r) /\ first_start (PArc a1 :: r) (ast a1) /\ last_end (PArc a1 :: r) e /\ point_distance2 e nj <= TOL /\ (check = false -> lookup j arcs = None -> e = nj)).
    { intros nj ->. exists nj. split; [intros [|[|?]] x y X Y; cbn in *; try discriminate|]. { inversion X; inversion Y; subst. cbn. rewrite dist_self. lra. } split; [reflexivity|]. split; [exists [PArc a1], (PSeg (aen a1, nj)); auto|]. rewrite dist_self. split; [lra|auto]. }
    destruct (lookup j arcs) as [a2|] eqn:LJ.
    + exists (ast a1), (ast a2). split; auto. split; auto. right. apply SU in H as [[-> D]|H]; [apply ONE; auto; discriminate|apply TWO; auto].
    + apply bind_ok in H as (q & Q & H). apply geti_ok in Q. exists (ast a1), q. split; auto. split; auto. right. destruct check.
      * apply SU in H as [[-> D]|H]; [apply ONE; auto; discriminate|apply TWO; auto].
      * apply seg_ok in H as [H _]. apply TWO; auto.
  - intros H. apply bind_ok in H as (p & P & H). apply geti_ok in P.
    assert (TWO : forall nj, l = [PSeg (p, nj)] -> exists e, chained (2 * TOL) l /\ first_start l p /\ last_end l e /\ point_distance2 e nj <= TOL /\ (check = false -> lookup j arcs = None -> e = nj)).
    { intros nj ->. exists nj. split; [intros [|?] x y X Y; cbn in *; try discriminate; destruct n; discriminate|]. split; [reflexivity|]. split; [exists [], (PSeg (p, nj)); auto|]. rewrite dist_self. split; [lra|auto]. }
    destruct (lookup j arcs) as [a2|] eqn:LJ.
    + exists p, (ast a2). split; auto. split; auto. apply SU in H as [[-> D]|H]; [left; eauto 8|right; apply TWO; auto].
    + apply bind_ok in H as (q & Q & H). apply geti_ok in Q. exists p, q. split; auto. split; auto. right. apply seg_ok in H as [H _]. apply TWO; auto.
Qed.
Lemma meets_fun pts arcs i p q : meets pts arcs i p -> meets pts arcs i q -> p = q.
Proof. unfold meets. destruct (lookup i arcs); congruence. Qed.
(** e can be followed by what is drawn from the point j *)
Definition link (pts : list vec2) (arcs : list (nat * arc2)) (j : nat) (e : vec2) : Prop :=
  exists nj, meets pts arcs j nj /\ point_distance2 e nj <= 2 * TOL /\ (lookup j arcs = None -> point_distance2 e nj <= TOL).
Definition path (pts : list vec2) (arcs : list (nat * arc2)) (i j : nat) (l : list prim) : Prop :=
  (l = [] /\ (i = j \/ (lookup i arcs = None /\ (exists a, lookup j arcs = Some a) /\ exists ni nj, meets pts arcs i ni /\ meets pts arcs j nj /\ point_distance2 ni nj <= TOL))) \/
  (exists s e ni, chained (2 * TOL) l /\ first_start l s /\ meets pts arcs i ni /\ point_distance2 s ni <= TOL /\ (forall a, lookup i arcs = Some a -> s = ni) /\ last_end l e /\ link pts arcs j e).
Lemma path_step pts arcs i j k check l m : path pts arcs i j l -> side_primitives pts arcs check j k = Ok m -> path pts arcs i k (l ++ m).
Proof.
  intros H E. apply side_spec in E as (nj & nk & MJ & MK & E). pose proof tol_pos as TP.
  destruct H as [(-> & H)|(s & e & ni & C & F & MI & D & Q & L & LK)].
  - cbn [app]. destruct E as [(-> & A & B & D)|(e & C & F & L & D & X)].
    + left. split; auto. destruct H as [<- |(A' & [a B'] & _)]; [right|congruence]. repeat split; auto. eauto.
    + right. destruct H as [<- |(A' & [a B'] & ni & nj' & MI & MJ' & D')].
      * exists nj, e, nj. rewrite dist_self. repeat split; auto. exists nk. split; auto. split; [lra|auto].
      * pose proof (meets_fun _ _ _ _ _ MJ MJ'). subst nj'. exists nj, e, ni. rewrite dist2_sym. repeat split; auto. { intros; congruence. } exists nk. split; auto. split; [lra|auto].
  - destruct LK as (nj' & MJ' & D1 & D2). pose proof (meets_fun _ _ _ _ _ MJ MJ'). subst nj'. right.
    destruct E as [(-> & A & [b B] & DJ)|(e' & C' & F' & L' & D' & X)].
    + rewrite app_nil_r. exists s, e, ni. repeat split; auto. exists nk. split; auto. specialize (D2 A). split; [|intros; congruence]. pose proof (dist2_triangle e nj nk). lra.
    + exists s, e', ni. repeat split; auto.
      * eapply chained_app; eauto.
      * destruct l; [destruct F|exact F].
      * destruct L' as (k' & a & -> & ->). exists (l ++ k'), a. rewrite app_assoc. auto.
      * exists nk. split; auto. split; [lra|auto].
Qed.
Lemma mapM_app {A B} (f : A -> res B) l1 l2 r : mapM f (l1 ++ l2) = Ok r -> exists r1 r2, mapM f l1 = Ok r1 /\ mapM f l2 = Ok r2 /\ r = r1 ++ r2.
Proof.
  revert r. induction l1 as [|a l1 IH]; cbn [mapM app]; intros r H; [exists [], r; auto|].
  apply bind_ok in H as (b & H1 & H). apply bind_ok in H as (r' & H2 & H). apply Ok_inj in H. subst r. apply IH in H2 as (r1 & r2 & E1 & E2 & ->).
  exists (b :: r1), r2. rewrite H1, E1. auto.
Qed.
Lemma path_sides pts arcs n ls : mapM (fun i => side_primitives pts arcs true i (i + 1)) (seq 0 n) = Ok ls -> path pts arcs 0 n (concat ls).
Proof.
  revert ls. induction n as [|n IH]; intros ls H; [cbn in H; apply Ok_inj in H; subst; left; auto|].
  rewrite seq_S in H. apply mapM_app in H as (r1 & r2 & H1 & H2 & ->). cbn [plus mapM] in H2. apply bind_ok in H2 as (m & M & H2). apply Ok_inj in H2. subst r2.
  rewrite concat_app. cbn [concat]. rewrite app_nil_r. apply IH in H1. replace (S n) with (n + 1)%nat by lia. eapply path_step; eauto.
Qed.
Lemma arcs_app l m : arcs_of (l ++ m) = arcs_of l ++ arcs_of m. Proof. unfold arcs_of. apply flat_map_app. Qed.
Lemma seg_arcs p q l : seg p q = Ok l -> arcs_of l = []. Proof. intros H. apply seg_ok in H as [-> _]. auto. Qed.
Lemma segu_arcs p q l : seg_unless_close p q = Ok l -> arcs_of l = []. Proof. unfold seg_unless_close. destruct (is_close2 _ _ _); intros H; [apply Ok_inj in H; subst; auto|eapply seg_arcs; eauto]. Qed.
Lemma side_arcs pts arcs check i j l : side_primitives pts arcs check i j = Ok l -> arcs_of l = match lookup i arcs with Some a => [a] | None => [] end.
Proof.
  unfold side_primitives. destruct (lookup i arcs) as [a1|].
  - intros H. apply bind_ok in H as (r & H & E). apply Ok_inj in E. subst l. change (arcs_of (PArc a1 :: r)) with (a1 :: arcs_of r). f_equal.
    destruct (lookup j arcs); [eapply segu_arcs; eauto|]. apply bind_ok in H as (q & _ & H). destruct check; [eapply segu_arcs|eapply seg_arcs]; eauto.
  - intros H. apply bind_ok in H as (p & _ & H). destruct (lookup j arcs); [eapply segu_arcs; eauto|]. apply bind_ok in H as (q & _ & H). eapply seg_arcs; eauto.
Qed.
Lemma somes_app {A} (l m : list (option A)) : somes (l ++ m) = somes l ++ somes m.
Proof. induction l as [|[a|] l IH]; cbn; congruence. Qed.
Lemma sides_arcs pts arcs n ls : mapM (fun i => side_primitives pts arcs true i (i + 1)) (seq 0 n) = Ok ls -> arcs_of (concat ls) = somes (map (fun i => lookup i arcs) (seq 0 n)).
Proof.
  revert ls. induction n as [|n IH]; intros ls H; [cbn in H; apply Ok_inj in H; subst; auto|].
  rewrite seq_S in H. apply mapM_app in H as (r1 & r2 & H1 & H2 & ->). cbn [plus mapM] in H2. apply bind_ok in H2 as (m & M & H2). apply Ok_inj in H2. subst r2.
  rewrite concat_app, arcs_app, (IH _ H1). cbn [concat]. rewrite app_nil_r, (side_arcs _ _ _ _ _ _ M), seq_S, map_app, somes_app. cbn. destruct (lookup n arcs); auto.
Qed.
(** the wire is connected, and draws each arc once, in order *)
Lemma wire_connected pts closed arcs l : (2 <= length pts)%nat -> primitives_from_arcs pts closed arcs = Ok l ->
  chained (2 / 10 ^ 6) l /\
  (forall a k b, l = a :: k -> (exists k', l = k' ++ [b]) -> closed = true -> point_distance2 (p_end b) (p_start a) <= 2 / 10 ^ 6) /\
  (forall a k p, l = a :: k -> meets pts arcs 0 p -> point_distance2 p (p_start a) <= / 10 ^ 6) /\
  (forall b k p, l = k ++ [b] -> closed = false -> meets pts arcs (length pts - 1) p -> point_distance2 (p_end b) p <= 2 / 10 ^ 6) /\
  arcs_of l = somes (map (fun i => lookup i arcs) (seq 0 (if closed then length pts else length pts - 1))).
Proof.
  intros LP H. unfold primitives_from_arcs in H. apply bind_ok in H as (ls & H1 & H). apply bind_ok in H as (lc & H2 & H). apply Ok_inj in H. subst l.
  pose proof (path_sides _ _ _ _ H1) as P. pose proof (sides_arcs _ _ _ _ H1) as A. pose proof tol_pos as TP.
  replace (2 / 10 ^ 6) with (2 * TOL) by (unfold TOL; field). fold TOL.
  assert (NC : chained (2 * TOL) []) by (intros [|?] x y X; discriminate).
  assert (G : forall i j l, path pts arcs i j l -> chained (2 * TOL) l /\ (forall a k p, l = a :: k -> meets pts arcs i p -> point_distance2 p (p_start a) <= TOL) /\ (forall b k p, l = k ++ [b] -> meets pts arcs j p -> point_distance2 (p_end b) p <= 2 * TOL)).
  { intros i j l [(-> & _)|(s & e & ni & C & F & MI & D & Q & L & (nj & MJ & D1 & D2))].
    - split; auto. split; [discriminate|]. intros b [|? ?] q X; discriminate.
    - split; auto. split.
      + intros a k p -> M. cbn in F. subst s. rewrite (meets_fun _ _ _ _ _ M MI), dist2_sym. auto.
      + intros b k p -> M. destruct L as (k' & a & E & ->). apply app_inj_tail in E as [_ <-]. rewrite (meets_fun _ _ _ _ _ M MJ). auto. }
  destruct closed.
  - pose proof (path_step _ _ _ _ _ _ _ _ P H2) as P2. pose proof (G _ _ _ P2) as (G1 & G2 & G3). split; auto. split; [|split; [auto|split; [intros; discriminate|]]].
    + intros a k b E (k' & E') _. destruct P2 as [(Z & _)|(s & e & ni & C & F & MI & D & Q & L & (nj & MJ & D1 & D2))]; [rewrite Z in E; discriminate|].
      pose proof (meets_fun _ _ _ _ _ MI MJ). subst nj. rewrite E in F. cbn in F. subst s.
      assert (e = p_end b) by (eapply last_end_fun; [exact L|exists k', b; auto]). subst e.
      destruct (lookup 0%nat arcs) as [a0|] eqn:L0; [rewrite (Q a0 eq_refl); auto|].
      (* the closing side stops exactly at the first point *)
      apply side_spec in H2 as (nl & nf & ML & MF & [(_ & _ & [a0 Z] & _)|(e & _ & F' & L' & _ & X)]); [congruence|].
      pose proof (meets_fun _ _ _ _ _ MI MF). subst nf. specialize (X eq_refl L0). subst e.
      assert (ni = p_end b). { eapply last_end_fun; [|exact L]. destruct L' as (k2 & a2 & -> & ->). exists (concat ls ++ k2), a2. rewrite app_assoc. auto. }
      rewrite <- H. rewrite dist2_sym. lra.
    + rewrite arcs_app, A, (side_arcs _ _ _ _ _ _ H2). replace (length pts) with (S (length pts - 1)) at 3 by lia. rewrite seq_S, map_app, somes_app. cbn. destruct (lookup (length pts - 1)%nat arcs); auto.
  - apply Ok_inj in H2. subst lc. rewrite app_nil_r. pose proof (G _ _ _ P) as (G1 & G2 & G3). split; auto. split; [intros; discriminate|]. split; [auto|]. split; [|auto]. intros b k p E _ M. eapply G3; eauto.
Qed.
