(** Polygons. *)
From Coq Require Import Reals Lra Lia List Bool Psatz Permutation Arith.
From Verif.Model Require Import RBase Vec Polygon.
From Verif.Spec Require Import PolygonSpec.
From Verif.Proofs Require Import VecP.
Import ListNotations.
Open Scope R_scope.

(** ** Sides *)
Lemma edges_sides pts : edges_of pts = sides pts.
Proof.
  destruct pts as [|p r]; [reflexivity|]. unfold edges_of, sides.
  cut (forall f p, combine (p :: r) (r ++ [f]) = sides_from f p r); [auto|]. clear p.
  induction r as [|q r IH]; intros f p; [reflexivity|]. cbn [app combine sides_from]. f_equal. apply (IH f q).
Qed.
Lemma sides_from_nth f a l i : nth_error (sides_from f a l) i =
  match nth_error (a :: l) i with Some u => Some (u, nth i l f) | None => None end.
Proof.
  revert a i. induction l as [|b l IH]; intros a [|i]; cbn; try reflexivity.
  - destruct i; reflexivity.
  - rewrite IH. reflexivity.
Qed.
Lemma sides_In pts a b : In (a, b) (sides pts) <-> is_side pts a b.
Proof.
  destruct pts as [|p r].
  { cbn. split; [tauto|intros (i & H & _)]. destruct i; discriminate. }
  unfold sides. split.
  - intros H. apply In_nth_error in H as [i H]. exists i. rewrite sides_from_nth in H.
    destruct (nth_error (p :: r) i) as [u|] eqn:E; [|discriminate]. injection H as -> Hb. split; auto.
    assert (L : (i < length (p :: r))%nat) by (apply nth_error_Some; congruence). cbn [length] in *.
    destruct (Nat.eq_dec i (length r)) as [->|Ne].
    + rewrite Nat.mod_same by lia. cbn. rewrite nth_overflow in Hb by lia. congruence.
    + rewrite Nat.mod_small by lia. cbn. rewrite nth_error_nth' with (d := p) by lia. congruence.
  - intros (i & H1 & H2). apply nth_error_In with i. rewrite sides_from_nth, H1. f_equal. f_equal.
    assert (L : (i < length (p :: r))%nat) by (apply nth_error_Some; congruence). cbn [length] in *.
    destruct (Nat.eq_dec i (length r)) as [->|Ne].
    + rewrite Nat.mod_same in H2 by lia. cbn in H2. rewrite nth_overflow by lia. congruence.
    + rewrite Nat.mod_small in H2 by lia. cbn in H2. apply nth_error_nth with (d := p) in H2. auto.
Qed.
Lemma last_d {A} (l : list A) c d e : last (c :: l) d = last (c :: l) e.
Proof. revert c. induction l as [|b l IH]; intros c; [reflexivity|]. apply (IH b). Qed.
Lemma sides_from_app f a l b r : sides_from f a (l ++ b :: r) = removelast (sides_from f a l) ++ (last (a :: l) a, b) :: sides_from f b r.
Proof.
  revert a. induction l as [|c l IH]; intros a; [reflexivity|].
  cbn [app sides_from]. rewrite IH. change (last (a :: c :: l) a) with (last (c :: l) a).
  assert (L : last (c :: l) a = last (c :: l) c).
  { apply last_d. }
  rewrite L. destruct l; reflexivity.
Qed.
Lemma sides_from_last f a l : sides_from f a l = removelast (sides_from f a l) ++ [(last (a :: l) a, f)].
Proof.
  revert a. induction l as [|c l IH]; intros a; [reflexivity|].
  change (last (a :: c :: l) a) with (last (c :: l) a).
  assert (L : last (c :: l) a = last (c :: l) c).
  { apply last_d. }
  rewrite L. cbn [sides_from]. rewrite IH at 1.
  assert (N : sides_from f c l <> []) by (destruct l; discriminate).
  destruct (sides_from f c l) eqn:E; [congruence|]. reflexivity.
Qed.
Lemma sides_from_first f g a l : removelast (sides_from f a l) = removelast (sides_from g a l).
Proof.
  revert a. induction l as [|c l IH]; intros a; [reflexivity|]. cbn [sides_from].
  assert (N : forall h, sides_from h c l <> []) by (intros; destruct l; discriminate).
  specialize (IH c). destruct (sides_from f c l) eqn:E1; [exfalso; eapply N; eauto|].
  destruct (sides_from g c l) eqn:E2; [exfalso; eapply N; eauto|]. 
  change (removelast ((a, c) :: p :: l0)) with ((a, c) :: removelast (p :: l0)).
  change (removelast ((a, c) :: p0 :: l1)) with ((a, c) :: removelast (p0 :: l1)). congruence.
Qed.
Lemma sides_rotate a l : Permutation (sides (a :: l)) (sides (l ++ [a])).
Proof.
  destruct l as [|b r]; [apply Permutation_refl|]. cbn [app sides sides_from].
  rewrite sides_from_app, (sides_from_last a b r), (sides_from_first b a b r). cbn [sides_from].
  change (?x :: ?y ++ [?z]) with ([x] ++ (y ++ [z])). rewrite (Permutation_app_comm [_]). rewrite <- app_assoc. reflexivity.
Qed.
(** consecutive pairs *)
Definition consec {A} (l : list A) : list (A * A) := combine l (tl l).
Lemma consec_snoc {A} (l : list A) d a : l <> [] -> consec (l ++ [a]) = consec l ++ [(last l d, a)].
Proof.
  induction l as [|x l IH]; [congruence|intros _].
  destruct l as [|y l]; [reflexivity|].
  change (consec ((x :: y :: l) ++ [a])) with ((x, y) :: consec ((y :: l) ++ [a])).
  rewrite IH by discriminate. reflexivity.
Qed.
Definition swap {A B} (p : A * B) := (snd p, fst p).
Lemma last_rev {A} (l : list A) a d : last (rev (a :: l)) d = a.
Proof. cbn. apply last_last. Qed.
Lemma consec_rev {A} (l : list A) : consec (rev l) = rev (map swap (consec l)).
Proof.
  induction l as [|a l IH]; [reflexivity|]. destruct l as [|b l]; [reflexivity|].
  change (rev (a :: b :: l)) with (rev (b :: l) ++ [a]). rewrite consec_snoc with (d := a).
  - rewrite IH, last_rev. reflexivity.
  - intros C. apply (f_equal (@length A)) in C. rewrite rev_length in C. discriminate.
Qed.
Lemma sides_consec a l : sides (a :: l) = consec (a :: l ++ [a]).
Proof.
  cbn [sides]. cut (forall f a, sides_from f a l = consec (a :: l ++ [f])); [auto|]. clear a.
  induction l as [|b l IH]; intros f a; [reflexivity|].
  cbn [sides_from app]. rewrite IH. reflexivity.
Qed.
Lemma sides_reverse pts : Permutation (sides (rev pts)) (map swap (sides pts)).
Proof.
  destruct pts as [|a l]; [apply Permutation_refl|].
  change (rev (a :: l)) with (rev l ++ [a]). rewrite <- sides_rotate, !sides_consec.
  replace (a :: rev l ++ [a]) with (rev (a :: l ++ [a])) by (cbn; rewrite rev_app_distr; reflexivity).
  rewrite consec_rev. apply Permutation_sym, Permutation_rev.
Qed.
Lemma sides_map (g : vec2 -> vec2) pts : sides (map g pts) = map (fun s => (g (fst s), g (snd s))) (sides pts).
Proof.
  destruct pts as [|a l]; [reflexivity|]. cbn [sides map].
  cut (forall f a, sides_from (g f) (g a) (map g l) = map (fun s => (g (fst s), g (snd s))) (sides_from f a l)); [auto|]. clear a.
  induction l as [|b l IH]; intros f a; [reflexivity|]. cbn [map sides_from fst snd]. rewrite IH. reflexivity.
Qed.
Lemma sides_length pts : length (sides pts) = length pts.
Proof. destruct pts as [|a l]; [reflexivity|]. cbn [sides length]. cut (forall f a, length (sides_from f a l) = S (length l)); [auto|]. clear a.
  induction l; intros; cbn; auto. Qed.

(** ** counts *)
Lemma counts_det {A} (P : A -> Prop) l n m : counts P l n -> counts P l m -> n = m.
Proof. intros H. revert m. induction H; intros m K; inversion K; subst; auto; contradiction. Qed.
Lemma counts_perm {A} (P : A -> Prop) l l' n : Permutation l l' -> counts P l n -> counts P l' n.
Proof.
  intros H. revert n. induction H; intros n K; auto.
  - inversion K; subst; [apply counts_yes|apply counts_no]; auto.
  - inversion K as [|? ? ? ? K1|? ? ? ? K1]; subst; inversion K1; subst; repeat first [apply counts_yes; [assumption|] | apply counts_no; [assumption|] | assumption].
Qed.
Lemma counts_map {A B} (P : A -> Prop) (Q : B -> Prop) (g : A -> B) l n : (forall a, In a l -> (Q (g a) <-> P a)) -> counts P l n -> counts Q (map g l) n.
Proof.
  intros H K. induction K; cbn; [constructor|apply counts_yes|apply counts_no]; try (apply IHK; intros; apply H; right; auto).
  - apply H; [left; auto|auto].
  - rewrite H by (left; auto). auto.
Qed.

(** ** One step *)
Lemma sqlen_pos a b : a <> b -> 0 < (x2 b - x2 a) ^ 2 + (y2 b - y2 a) ^ 2.
Proof.
  intros H. pose proof (pow2_ge_0 (x2 b - x2 a)) as P. pose proof (pow2_ge_0 (y2 b - y2 a)) as Q.
  destruct (Req_dec (x2 a) (x2 b)) as [E|E]; [|assert (0 < (x2 b - x2 a) ^ 2) by ((rewrite <- Rsqr_pow2; apply Rsqr_pos_lt; lra)); lra].
  destruct (Req_dec (y2 a) (y2 b)) as [F|F]; [|assert (0 < (y2 b - y2 a) ^ 2) by (rewrite <- Rsqr_pow2; apply Rsqr_pos_lt; lra); lra].
  exfalso. apply H, vec2_ext; auto.
Qed.
Lemma sqrt_le_tol d tol : 0 <= tol -> 0 <= d -> (sqrt d <= tol <-> d <= tol ^ 2).
Proof.
  intros T D. split; intros H.
  - rewrite <- (sqrt_sqrt d) by auto. pose proof (sqrt_pos d). nra.
  - rewrite <- (sqrt_pow2 tol) by auto. apply sqrt_le_1; nra.
Qed.
Lemma xints_eq (p a b : vec2) t : y2 a <> y2 b -> y2 a + t * (y2 b - y2 a) = y2 p ->
  x2 a + t * (x2 b - x2 a) = (y2 p - y2 a) * (x2 b - x2 a) / (y2 b - y2 a) + x2 a.
Proof. intros N E. rewrite <- E. field. lra. Qed.
Lemma near_on tol p a b : 0 <= tol -> on_segment p a b -> near_side tol p a b.
Proof. intros T H. exists p. split; auto. split; [ring|]. nra. Qed.
Lemma min_max_in a b t : 0 <= t <= 1 -> Rmin a b <= a + t * (b - a) <= Rmax a b.
Proof. intros H. unfold Rmin, Rmax. destruct (Rle_dec a b); nra. Qed.

Lemma frac_in p a b : a <> b -> Rmin a b <= p -> p <= Rmax a b -> 0 <= (p - a) / (b - a) <= 1.
Proof.
  intros N A B. unfold Rmin, Rmax in *. destruct (Rle_dec a b).
  - assert (0 < / (b - a)) by (apply Rinv_0_lt_compat; lra). split.
    + apply Rmult_le_pos; lra.
    + apply Rmult_le_reg_r with (b - a); [lra|]. unfold Rdiv. rewrite Rmult_assoc, Rinv_l by lra. lra.
  - assert (0 < / (a - b)) by (apply Rinv_0_lt_compat; lra).
    replace ((p - a) / (b - a)) with ((a - p) * / (a - b)) by (field; lra). split.
    + apply Rmult_le_pos; lra.
    + apply Rmult_le_reg_r with (a - b); [lra|]. rewrite Rmult_assoc, Rinv_l by lra. lra.
Qed.
Lemma step_spec p a b tol : 0 <= tol -> a <> b ->
  (belongs_step p a b tol = Edge /\ near_side tol p a b) \/
  (belongs_step p a b tol = Cross /\ ~ near_side tol p a b /\ ray_crosses p (a, b)) \/
  (belongs_step p a b tol = Skip /\ ~ near_side tol p a b /\ ~ ray_crosses p (a, b)).
Proof.
  intros T N. pose proof (sqlen_pos _ _ N) as L. unfold belongs_step.
  set (ls := x2 (sub2 b a) ^ 2 + y2 (sub2 b a) ^ 2).
  assert (Els : ls = (x2 b - x2 a) ^ 2 + (y2 b - y2 a) ^ 2) by reflexivity.
  assert (Lp : 0 < ls) by (rewrite Els; auto).
  destruct (Reqb ls 0) eqn:E0; rb; [lra|]. clear E0.
  set (t := dot2 (sub2 p a) (sub2 b a) / ls).
  assert (Et : t * ls = (x2 p - x2 a) * (x2 b - x2 a) + (y2 p - y2 a) * (y2 b - y2 a)).
  { unfold t, dot2, sub2. cbn [x2 y2]. field. lra. }
  cbn [x2 y2]. set (d := (x2 a + x2 (sub2 b a) * t - x2 p) ^ 2 + (y2 a + y2 (sub2 b a) * t - y2 p) ^ 2).
  assert (Ed : d = (x2 p - x2 (at_param a b t)) ^ 2 + (y2 p - y2 (at_param a b t)) ^ 2) by (unfold d, at_param, sub2; cbn; ring).
  assert (Pd : 0 <= d) by (apply Rplus_le_le_0_compat; apply pow2_ge_0).
  assert (NS : near_side tol p a b <-> 0 <= t /\ t <= 1 /\ sqrt d <= tol).
  { rewrite sqrt_le_tol by auto. split.
    - intros (q & (s & Hs & ->) & O & D). assert (s = t).
      { apply Rmult_eq_reg_r with ls; [|lra]. rewrite Et, Els. unfold at_param in O. cbn [x2 y2] in O. clear - O. lra. }
      subst s. rewrite Ed. tauto.
    - intros (H1 & H2 & H3). exists (at_param a b t). split; [exists t; auto|]. split; [|rewrite <- Ed; auto].
      unfold at_param; cbn [x2 y2]. rewrite Els in Et. clear - Et. lra. }
  destruct (Rleb 0 t && Rleb t 1 && Rleb (sqrt d) tol) eqn:E1.
  { left. split; auto. apply NS. rewrite !andb_true_iff, !Rleb_spec in E1. tauto. }
  assert (NN : ~ near_side tol p a b).
  { rewrite NS. intros (H1 & H2 & H3). rewrite <- Rleb_spec in H1, H2, H3. rewrite H1, H2, H3 in E1. discriminate. }
  clear E1 NS. assert (NO : ~ on_segment p a b) by (intros H; apply NN, near_on; auto).
  clearbody d t. clear d Ed Pd t Et.
  set (xi := (y2 p - y2 a) * (x2 b - x2 a) / (y2 b - y2 a) + x2 a) in *.
  match goal with |- context [if ?c then Edge else _] => destruct c eqn:E2 end.
  { exfalso. rewrite !andb_true_iff, orb_true_iff, !Rleb_spec, !Reqb_spec in E2.
    destruct E2 as [[[[A B] C] D] F]. apply NO.
    assert (Fy : y2 a = y2 b \/ y2 a <> y2 b) by (destruct (Req_dec (y2 a) (y2 b)); auto).
    destruct Fy as [Fy|Fy].
    - assert (Nx : x2 a <> x2 b) by (intros C1; apply N, vec2_ext; auto).
      rewrite Fy in A, B. rewrite Rmin_left in A by lra. rewrite Rmax_left in B by lra.
      exists ((x2 p - x2 a) / (x2 b - x2 a)). split.
      + apply frac_in; auto.
      + apply vec2_ext; unfold at_param; cbn [x2 y2]; [field; lra|rewrite Fy, Rminus_eq_0; lra].
    - destruct F as [F|F]; [contradiction|].
      exists ((y2 p - y2 a) / (y2 b - y2 a)). assert (y2 b - y2 a <> 0) by lra. split.
      + apply frac_in; lra.
      + apply vec2_ext; unfold at_param; cbn; [rewrite F; unfold xi; field; lra|field; lra]. }
  clear E2. right.
  assert (RC : ray_crosses p (a, b) <-> (Rmin (y2 a) (y2 b) < y2 p <= Rmax (y2 a) (y2 b)) /\ x2 p < xi).
  { unfold ray_crosses. cbn [fst snd]. 
    assert (HH : (y2 a < y2 p <= y2 b \/ y2 b < y2 p <= y2 a) <-> Rmin (y2 a) (y2 b) < y2 p <= Rmax (y2 a) (y2 b)).
    { unfold Rmin, Rmax. destruct (Rle_dec (y2 a) (y2 b)); lra. }
    rewrite HH. split.
    - intros (H & q & (s & Hs & ->) & Hy & Hx). split; auto. cbn [at_param x2 y2] in Hx, Hy. unfold xi. rewrite <- (xints_eq p a b s); auto; lra.
    - intros (H & Hx). split; auto. assert (Ny : y2 b - y2 a <> 0) by (unfold Rmin, Rmax in *; destruct (Rle_dec (y2 a) (y2 b)); lra).
      exists (at_param a b ((y2 p - y2 a) / (y2 b - y2 a))). split; [|split].
      + eexists; split; [|reflexivity]. apply frac_in; lra.
      + cbn. field; lra.
      + cbn. eapply Rlt_le_trans; [exact Hx|]. right. unfold xi. field; lra. }
  match goal with |- context [if ?c then Cross else _] => destruct c eqn:E3 end.
  - left. split; auto. split; auto. apply RC.
    rewrite !andb_true_iff, orb_true_iff, !Rleb_spec, !Rltb_spec, !Reqb_spec in E3.
    destruct E3 as [[[A B] C] D]. split; [lra|]. destruct D as [D|D]; auto.
    assert (xi = x2 a) by (unfold xi; rewrite D; unfold Rdiv; ring).
    rewrite D, Rmax_left in C by lra. assert (x2 p <> x2 a); [|lra].
    intros C2. apply NO.
    assert (Ny : y2 b - y2 a <> 0) by (unfold Rmin, Rmax in *; destruct (Rle_dec (y2 a) (y2 b)); lra).
    exists ((y2 p - y2 a) / (y2 b - y2 a)). split.
      + apply frac_in; lra.
      + apply vec2_ext; unfold at_param; cbn; [rewrite <- D, C2; ring|field; lra].
  - right. split; auto. split; auto. rewrite RC. intros [[H1 H2] H3].
    assert (X : x2 p <= Rmax (x2 a) (x2 b)).
    { assert (Ny : y2 b - y2 a <> 0) by (unfold Rmin, Rmax in *; destruct (Rle_dec (y2 a) (y2 b)); lra).
      pose proof (min_max_in (x2 a) (x2 b) ((y2 p - y2 a) / (y2 b - y2 a))) as M.
      assert (Q : x2 a + (y2 p - y2 a) / (y2 b - y2 a) * (x2 b - x2 a) = xi) by (unfold xi; field; lra).
      rewrite Q in M. destruct M; [|lra].
      apply frac_in; lra. }
    apply Rltb_spec in H1, H3. apply Rleb_spec in H2, X. rewrite H1, H2, H3, X, orb_true_r in E3. discriminate.
Qed.

(** ** point_belongs *)
Lemma loop_spec p inc tol es : 0 <= tol -> (forall a b, In (a, b) es -> a <> b) -> forall ins,
  ((exists a b, In (a, b) es /\ near_side tol p a b) /\ belongs_loop p inc tol ins es = Ok inc) \/
  ((forall a b, In (a, b) es -> ~ near_side tol p a b) /\
   exists n, counts (ray_crosses p) es n /\ belongs_loop p inc tol ins es = Ok (xorb ins (Nat.odd n))).
Proof.
  intros T. induction es as [|[a b] es IH]; intros ND ins.
  - right. split; [intros ? ? []|]. exists 0%nat. split; [constructor|]. cbn. rewrite xorb_false_r. reflexivity.
  - assert (ND' : forall a b, In (a, b) es -> a <> b) by (intros; apply ND; right; auto).
    cbn [belongs_loop]. destruct (step_spec p a b tol T (ND a b (or_introl eq_refl))) as [[-> H]|[[-> [H K]]|[-> [H K]]]].
    + left. split; auto. exists a, b. split; auto. left; auto.
    + destruct (IH ND' (negb ins)) as [[(a' & b' & I & N) E]|[N (n & C & E)]].
      * left. split; auto. exists a', b'. split; auto. right; auto.
      * right. split; [intros a' b' [Q|Q]; [injection Q as <- <-; auto|auto]|].
        exists (S n). split; [apply counts_yes; auto|]. rewrite E, Nat.odd_succ, <- Nat.negb_odd. destruct ins, (Nat.odd n); reflexivity.
    + destruct (IH ND' ins) as [[(a' & b' & I & N) E]|[N (n & C & E)]].
      * left. split; auto. exists a', b'. split; auto. right; auto.
      * right. split; [intros a' b' [Q|Q]; [injection Q as <- <-; auto|auto]|].
        exists n. split; [apply counts_no; auto|]. auto.
Qed.
Lemma nds_In pts : no_degenerate_side pts -> forall a b, In (a, b) (sides pts) -> a <> b.
Proof. intros H a b I. apply H, sides_In; auto. Qed.
Lemma belongs_cases pts p inc tol : 0 <= tol -> no_degenerate_side pts ->
  ((exists a b, is_side pts a b /\ near_side tol p a b) /\ polygon_point_belongs pts p inc tol = Ok inc) \/
  ((forall a b, is_side pts a b -> ~ near_side tol p a b) /\
   exists n, counts (ray_crosses p) (sides pts) n /\ polygon_point_belongs pts p inc tol = Ok (Nat.odd n)).
Proof.
  intros T ND. unfold polygon_point_belongs. rewrite edges_sides.
  destruct (loop_spec p inc tol (sides pts) T (nds_In _ ND) false) as [[(a & b & I & N) E]|[N (n & C & E)]].
  - left. split; auto. exists a, b. split; auto. apply sides_In; auto.
  - right. split; [intros a b I; apply N, sides_In; auto|]. exists n. split; auto. rewrite E. destruct (Nat.odd n); auto.
Qed.
Lemma belongs_near pts p inc tol a b : 0 <= tol -> no_degenerate_side pts -> is_side pts a b -> near_side tol p a b ->
  polygon_point_belongs pts p inc tol = Ok inc.
Proof.
  intros T ND S N. destruct (belongs_cases pts p inc tol T ND) as [[_ E]|[H _]]; auto. exfalso. eapply H; eauto.
Qed.
Lemma belongs_boundary pts p inc tol : 0 <= tol -> no_degenerate_side pts -> on_boundary p pts -> polygon_point_belongs pts p inc tol = Ok inc.
Proof. intros T ND (a & b & S & O). eapply belongs_near; eauto. apply near_on; auto. Qed.
Lemma belongs_parity pts p inc tol n : 0 <= tol -> no_degenerate_side pts -> (forall a b, is_side pts a b -> ~ near_side tol p a b) ->
  counts (ray_crosses p) (sides pts) n -> polygon_point_belongs pts p inc tol = Ok (Nat.odd n).
Proof.
  intros T ND H C. destruct (belongs_cases pts p inc tol T ND) as [[(a & b & S & N) _]|[_ (m & C' & E)]].
  - exfalso. eapply H; eauto.
  - rewrite E, (counts_det _ _ _ _ C C'). auto.
Qed.
Lemma belongs_degenerate pts p inc tol : (exists a b r, pts = a :: b :: r /\ a = b) -> polygon_point_belongs pts p inc tol = Err ZeroDivisionError.
Proof.
  intros (a & b & r & -> & <-). unfold polygon_point_belongs. cbn. unfold belongs_step.
  assert (E : Reqb (x2 (sub2 a a) ^ 2 + y2 (sub2 a a) ^ 2) 0 = true) by (apply Reqb_spec; unfold sub2; cbn; ring).
  rewrite E. auto.
Qed.
(** equality of results *)
Definition same_sides (f : vec2 -> vec2) (p q : vec2) tol (l l' : list (vec2 * vec2)) :=
  exists g : vec2 * vec2 -> vec2 * vec2, Permutation (map g l) l' /\
    (forall s, near_side tol q (fst (g s)) (snd (g s)) <-> near_side tol p (fst s) (snd s)) /\
    (forall s, ray_crosses q (g s) <-> ray_crosses p s) /\ (forall s, fst s <> snd s <-> fst (g s) <> snd (g s)).
Lemma belongs_same pts pts' p q inc tol : 0 <= tol -> no_degenerate_side pts -> same_sides (fun x => x) p q tol (sides pts) (sides pts') ->
  polygon_point_belongs pts' q inc tol = polygon_point_belongs pts p inc tol.
Proof.
  intros T ND (g & P & N & C & D).
  assert (ND' : no_degenerate_side pts').
  { intros a b S. apply sides_In in S. eapply Permutation_in in S; [|apply Permutation_sym, P].
    apply in_map_iff in S as (s & E & I). replace a with (fst (g s)) by (rewrite E; auto). replace b with (snd (g s)) by (rewrite E; auto).
    apply (proj1 (D s)). apply ND. apply sides_In. destruct s; auto. }
  destruct (belongs_cases pts p inc tol T ND) as [[(a & b & S & H) ->]|[H (n & K & ->)]].
  - apply sides_In in S. eapply belongs_near with (a := fst (g (a, b))) (b := snd (g (a, b))); auto.
    + apply sides_In. eapply Permutation_in; [apply P|]. apply in_map_iff. exists (a, b). split; auto. destruct (g (a, b)); auto.
    + apply N; auto.
  - apply belongs_parity; auto.
    + intros a b S K2. apply sides_In in S. eapply Permutation_in in S; [|apply Permutation_sym, P].
      apply in_map_iff in S as (s & E & I). replace a with (fst (g s)) in K2 by (rewrite E; auto). replace b with (snd (g s)) in K2 by (rewrite E; auto).
      apply N in K2. eapply (H (fst s) (snd s)); auto. apply sides_In. destruct s; auto.
    + eapply counts_perm; [apply P|]. eapply counts_map; [|apply K]. intros; apply C.
Qed.
Lemma on_segment_swap q a b : on_segment q a b <-> on_segment q b a.
Proof.
  assert (H : forall a b, on_segment q a b -> on_segment q b a).
  { clear. intros a b (t & H & ->). exists (1 - t). split; [lra|]. unfold at_param. apply vec2_ext; cbn; ring. }
  split; apply H.
Qed.
Lemma belongs_rotate a l p inc tol : 0 <= tol -> no_degenerate_side (a :: l) ->
  polygon_point_belongs (l ++ [a]) p inc tol = polygon_point_belongs (a :: l) p inc tol.
Proof.
  intros T ND. apply belongs_same; auto. exists (fun s => s). split; [rewrite map_id; apply sides_rotate|]. split; [|split]; intros; apply iff_refl.
Qed.
Lemma belongs_reverse pts p inc tol : 0 <= tol -> no_degenerate_side pts ->
  polygon_point_belongs (rev pts) p inc tol = polygon_point_belongs pts p inc tol.
Proof.
  intros T ND. apply belongs_same; auto. exists swap. split; [apply Permutation_sym, sides_reverse|].
  assert (N : forall tol p a b, near_side tol p a b -> near_side tol p b a).
  { clear. intros tol p a b (q & O & D & H). exists q. split; [apply on_segment_swap; auto|]. split; [lra|auto]. }
  assert (C : forall p s, ray_crosses p s -> ray_crosses p (swap s)).
  { clear. intros p s (H & q & O & Hy & Hx). split; [tauto|]. exists q. split; auto. apply on_segment_swap; auto. }
  split; [|split]; intros [a b]; split; intros H.
  - apply N; auto.
  - apply N; auto.
  - apply C in H; auto.
  - apply C in H; auto.
  - intros K; apply H; cbn in *; congruence.
  - intros K; apply H; cbn in *; congruence.
Qed.
Lemma at_param_tr a b t o : at_param (translation2 a o) (translation2 b o) t = translation2 (at_param a b t) o.
Proof. unfold at_param, translation2. cbn. v_eq; ring. Qed.
Lemma tr_inv q o : translation2 (sub2 q o) o = q.
Proof. unfold translation2, sub2. destruct q; cbn. v_eq; ring. Qed.
Lemma on_segment_tr q a b o : on_segment (translation2 q o) (translation2 a o) (translation2 b o) <-> on_segment q a b.
Proof.
  split; intros (t & H & E); exists t; split; auto.
  - rewrite at_param_tr in E. pose proof (f_equal x2 E) as E1; pose proof (f_equal y2 E) as E2. cbn [translation2 x2 y2] in E1, E2. apply vec2_ext; lra.
  - rewrite at_param_tr, E; auto.
Qed.
Lemma belongs_translation pts p o inc tol : 0 <= tol -> no_degenerate_side pts ->
  polygon_point_belongs (polygon_translation pts o) (translation2 p o) inc tol = polygon_point_belongs pts p inc tol.
Proof.
  intros T ND. apply belongs_same; auto. exists (fun s => (translation2 (fst s) o, translation2 (snd s) o)).
  split; [unfold polygon_translation; rewrite sides_map; apply Permutation_refl|]. cbn [fst snd]. split; [|split].
  - intros [a b]. cbn [fst snd]. split; intros (q & O & D & H).
    + exists (sub2 q o). rewrite <- (tr_inv q o) in O. apply (proj1 (on_segment_tr _ _ _ _)) in O. split; auto. unfold translation2, sub2 in *; cbn in *.
      split; [rewrite <- D; ring|]. eapply Rle_trans; [|apply H]. right; ring.
    + exists (translation2 q o). split; [apply on_segment_tr; auto|]. unfold translation2; cbn.
      split; [rewrite <- D; ring|]. eapply Rle_trans; [|apply H]. right; ring.
  - intros [a b]. unfold ray_crosses. cbn [fst snd]. split; intros (H & q & O & Hy & Hx).
    + split; [unfold translation2 in *; cbn in *; lra|]. exists (sub2 q o). rewrite <- (tr_inv q o) in O. apply (proj1 (on_segment_tr _ _ _ _)) in O. split; auto.
      unfold translation2, sub2 in *; cbn in *. lra.
    + split; [unfold translation2 in *; cbn in *; lra|]. exists (translation2 q o). split; [apply on_segment_tr; auto|]. unfold translation2 in *; cbn in *. lra.
  - intros [a b]. cbn [fst snd]. split; intros H C; apply H.
    + pose proof (f_equal x2 C) as E1; pose proof (f_equal y2 C) as E2. cbn [translation2 x2 y2] in E1, E2. apply vec2_ext; lra.
    + rewrite C; auto.
Qed.
Lemma belongs_no_tol_edge pts p tol : 0 <= tol -> no_degenerate_side pts -> polygon_point_belongs pts p false tol = Ok true ->
  polygon_point_belongs pts p true tol = Ok true.
Proof.
  intros T ND H. destruct (belongs_cases pts p false tol T ND) as [[_ E]|[N (n & C & E)]]; [congruence|].
  rewrite (belongs_parity pts p true tol n); auto. congruence.
Qed.

(** ** Triangles *)
Lemma ray_sign p a b : ray_crosses p (a, b) <->
  (y2 a < y2 p <= y2 b /\ 0 < tri2 a b p) \/ (y2 b < y2 p <= y2 a /\ tri2 a b p < 0).
Proof.
  unfold ray_crosses. cbn [fst snd]. split.
  - intros (H & q & (t & Ht & ->) & Hy & Hx). cbn [at_param x2 y2] in Hy, Hx.
    assert (E : tri2 a b p = (x2 a + t * (x2 b - x2 a) - x2 p) * (y2 b - y2 a)) by (unfold tri2; rewrite <- Hy; ring).
    rewrite E. destruct H as [H|H]; [left|right]; (split; [lra|]).
    + apply Rmult_lt_0_compat; lra.
    + apply Ropp_lt_cancel. rewrite Ropp_0, Ropp_mult_distr_r. apply Rmult_lt_0_compat; lra.
  - intros H. assert (Ny : y2 b - y2 a <> 0) by lra.
    set (t := (y2 p - y2 a) / (y2 b - y2 a)).
    assert (Et : t * (y2 b - y2 a) = y2 p - y2 a) by (unfold t; field; auto).
    split; [tauto|]. exists (at_param a b t). split; [|split].
    + exists t. split; auto. apply frac_in; [lra| |]; unfold Rmin, Rmax; destruct (Rle_dec (y2 a) (y2 b)); lra.
    + cbn. lra.
    + cbn [at_param x2 y2]. clearbody t.
      assert (E : tri2 a b p = (x2 a + t * (x2 b - x2 a) - x2 p) * (y2 b - y2 a)).
      { unfold tri2. replace (y2 p - y2 a) with (t * (y2 b - y2 a)) by lra. ring. }
      rewrite E in H. set (d := x2 a + t * (x2 b - x2 a) - x2 p) in *. enough (0 < d) by (unfold d in *; lra). clearbody d.
      destruct H as [[H K]|[H K]].
      * destruct (Rlt_dec 0 d); auto. assert (d * (y2 b - y2 a) <= 0); [|lra].
        apply Ropp_le_cancel. rewrite Ropp_0, Ropp_mult_distr_l. apply Rmult_le_pos; lra.
      * destruct (Rlt_dec 0 d); auto. assert (0 <= d * (y2 b - y2 a)); [|lra].
        replace (d * (y2 b - y2 a)) with ((- d) * (y2 a - y2 b)) by ring. apply Rmult_le_pos; lra.
Qed.
Lemma half_on p a b : (y2 a < y2 p <= y2 b \/ y2 b < y2 p <= y2 a) -> tri2 a b p = 0 -> on_segment p a b.
Proof.
  intros H E. assert (Ny : y2 b - y2 a <> 0) by lra.
  exists ((y2 p - y2 a) / (y2 b - y2 a)). split.
  - apply frac_in; [lra| |]; unfold Rmin, Rmax; destruct (Rle_dec (y2 a) (y2 b)); lra.
  - unfold tri2 in E. apply vec2_ext; cbn [at_param x2 y2]; [|field; auto].
    apply Rmult_eq_reg_r with (y2 b - y2 a); auto. field_simplify; [|auto]. lra.
Qed.
Lemma bary_id p a b c : tri2 a b p * (y2 c - y2 p) + tri2 b c p * (y2 a - y2 p) + tri2 c a p * (y2 b - y2 p) = 0 /\
  tri2 a b p * (x2 c - x2 p) + tri2 b c p * (x2 a - x2 p) + tri2 c a p * (x2 b - x2 p) = 0 /\
  tri2 a b p + tri2 b c p + tri2 c a p = tri2 a b c.
Proof. unfold tri2. repeat split; ring. Qed.
Lemma in_triangle_sign p a b c : tri2 a b c <> 0 -> (in_triangle p a b c <->
  (0 < tri2 a b p /\ 0 < tri2 b c p /\ 0 < tri2 c a p) \/ (tri2 a b p < 0 /\ tri2 b c p < 0 /\ tri2 c a p < 0)).
Proof.
  intros D. split.
  - intros (l & m & n & L & M & N & S & X & Y).
    assert (E1 : tri2 a b p = n * tri2 a b c).
    { unfold tri2. rewrite X, Y. replace l with (1 - m - n) by lra. ring. }
    assert (E2 : tri2 b c p = l * tri2 a b c).
    { unfold tri2. rewrite X, Y. replace l with (1 - m - n) by lra. ring. }
    assert (E3 : tri2 c a p = m * tri2 a b c).
    { unfold tri2. rewrite X, Y. replace l with (1 - m - n) by lra. ring. }
    rewrite E1, E2, E3. destruct (Rlt_dec 0 (tri2 a b c)) as [P|P]; [left|right].
    + repeat split; apply Rmult_lt_0_compat; auto.
    + assert (0 < - tri2 a b c) by lra.
      repeat split; (apply Ropp_lt_cancel; rewrite Ropp_0, Ropp_mult_distr_r; apply Rmult_lt_0_compat; auto).
  - intros H. destruct (bary_id p a b c) as (Y & X & S). set (d := tri2 a b c) in *.
    exists (tri2 b c p / d), (tri2 c a p / d), (tri2 a b p / d).
    assert (Q : forall k, (0 < k /\ 0 < d) \/ (k < 0 /\ d < 0) -> 0 < k / d).
    { intros k [[K1 K2]|[K1 K2]].
      - apply Rmult_lt_0_compat; auto. apply Rinv_0_lt_compat; auto.
      - replace (k / d) with (- k * / - d) by (field; lra). apply Rmult_lt_0_compat; [lra|]. apply Rinv_0_lt_compat; lra. }
    repeat split; try (apply Q; lra).
    + rewrite <- S in *. field. lra.
    + apply Rmult_eq_reg_r with d; auto. field_simplify; auto. rewrite <- S. lra.
    + apply Rmult_eq_reg_r with d; auto. field_simplify; auto. rewrite <- S. lra.
Qed.
Lemma counts3 {A} (P : A -> Prop) x y z n : counts P [x; y; z] n ->
  exists b1 b2 b3 : bool, (b1 = true <-> P x) /\ (b2 = true <-> P y) /\ (b3 = true <-> P z) /\
    Nat.odd n = xorb b1 (xorb b2 b3).
Proof.
  intros H. inversion H as [|? ? ? H1 K|? ? ? H1 K]; subst; inversion K as [|? ? ? H2 K2|? ? ? H2 K2]; subst;
    inversion K2 as [|? ? ? H3 K3|? ? ? H3 K3]; subst; inversion K3; subst;
    [exists true, true, true|exists true, true, false|exists true, false, true|exists true, false, false
    |exists false, true, true|exists false, true, false|exists false, false, true|exists false, false, false];
    (split; [|split; [|split]]; [split; (tauto || discriminate)..|reflexivity]).
Qed.
Lemma pos_mul3 a b c x y z : 0 < a -> 0 < b -> 0 < c -> 0 <= x -> 0 <= y -> 0 <= z -> a * x + b * y + c * z = 0 -> x = 0 /\ y = 0 /\ z = 0.
Proof.
  intros A B C X Y Z E. assert (0 <= a * x) by (apply Rmult_le_pos; lra). assert (0 <= b * y) by (apply Rmult_le_pos; lra).
  assert (0 <= c * z) by (apply Rmult_le_pos; lra).
  assert (a * x = 0) by lra. assert (b * y = 0) by lra. assert (c * z = 0) by lra.
  apply Rmult_integral in H2, H3, H4. lra.
Qed.
(** one vertex on one side, the two others on the other *)
Lemma lone u v w A B C : w * C + u * A + v * B = 0 -> u <> 0 -> v <> 0 -> (0 <= C /\ A < 0 /\ B < 0) \/ (C < 0 /\ 0 <= A /\ 0 <= B /\ (A = 0 -> B = 0 -> ~ ((0 < u /\ 0 < v) \/ (u < 0 /\ v < 0)))) ->
  ((0 < w /\ 0 < u /\ 0 < v) \/ (w < 0 /\ u < 0 /\ v < 0) <-> (0 < u /\ 0 < v) \/ (u < 0 /\ v < 0)).
Proof.
  intros E U V H. split; [tauto|]. intros K.
  assert (H' : (0 <= C /\ A < 0 /\ B < 0) \/ (C < 0 /\ 0 <= A /\ 0 <= B /\ 0 < A + B)).
  { destruct H as [H|(H1 & H2 & H3 & H4)]; [tauto|right]. destruct (Req_dec A 0), (Req_dec B 0); try lra; exfalso; apply H4; auto. }
  clear H; rename H' into H.
  assert (S : forall a x, 0 < a -> x < 0 -> a * x < 0) by (intros; nra).
  assert (S' : forall a x, a < 0 -> x < 0 -> 0 < a * x) by (intros; nra).
  assert (T : forall a x, 0 <= a -> 0 <= x -> 0 <= a * x) by (intros; nra).
  assert (T' : forall a x, a <= 0 -> 0 <= x -> a * x <= 0) by (intros; nra).
  destruct K as [[K1 K2]|[K1 K2]]; [left|right]; (split; [|tauto]).
  - destruct H as [(H1 & H2 & H3)|(H1 & H2 & H3 & H4)].
    + pose proof (S u A K1 H2). pose proof (S v B K2 H3). destruct (Rlt_dec 0 w); auto. pose proof (T' w C). lra.
    + assert (0 < u * A + v * B). { destruct H2 as [H2|<-]; [pose proof (Rmult_lt_0_compat u A K1 H2); pose proof (T v B); lra|]. assert (0 < B) by lra. pose proof (Rmult_lt_0_compat v B K2 H). lra. }
      destruct (Rlt_dec 0 w); auto. exfalso. assert (0 <= w * C); [|lra]. replace (w * C) with ((- w) * (- C)) by ring. apply T; lra.
  - destruct H as [(H1 & H2 & H3)|(H1 & H2 & H3 & H4)].
    + pose proof (S' u A K1 H2). pose proof (S' v B K2 H3). destruct (Rlt_dec w 0); auto. pose proof (T w C). lra.
    + assert (u * A + v * B < 0). { pose proof (T' u A). pose proof (T' v B). destruct H2 as [H2|<-]; [|assert (0 < B) by lra]; nra. }
      destruct (Rlt_dec w 0); auto. exfalso. assert (w * C <= 0); [|lra]. replace (w * C) with (- (w * - C)) by ring. pose proof (T w (- C)). lra.
Qed.
Lemma flat_out p a b c : y2 a = y2 p -> y2 b = y2 p -> y2 c < y2 p -> ~ on_segment p a b ->
  ~ ((0 < tri2 b c p /\ 0 < tri2 c a p) \/ (tri2 b c p < 0 /\ tri2 c a p < 0)).
Proof.
  intros A B C N H. apply N.
  assert (E1 : tri2 b c p = (y2 p - y2 c) * (x2 p - x2 b)) by (unfold tri2; rewrite B; ring).
  assert (E2 : tri2 c a p = (y2 p - y2 c) * (x2 a - x2 p)) by (unfold tri2; rewrite A; ring).
  rewrite E1, E2 in H. set (k := y2 p - y2 c) in *. assert (0 < k) by (unfold k; lra). clearbody k.
  assert (Q : x2 b < x2 p < x2 a \/ x2 a < x2 p < x2 b) by (destruct H as [[]|[]]; [left|right]; nra).
  exists ((x2 p - x2 a) / (x2 b - x2 a)). split.
  - apply frac_in; [lra| |]; unfold Rmin, Rmax; destruct (Rle_dec (x2 a) (x2 b)); lra.
  - apply vec2_ext; cbn [at_param x2 y2]; [field; lra|]. rewrite A, B. rewrite Rminus_eq_0. lra.
Qed.
Ltac al := repeat match goal with H : ?T |- _ => lazymatch T with
  | _ <= _ => fail | _ < _ => fail | @eq R _ _ => fail | ~ (_ <= _) => fail | _ < _ /\ _ => fail | _ \/ _ => fail | R => fail | bool => fail | _ => clear H end end; lra.
Ltac tri_end := cbn; split; intros; try discriminate; try reflexivity; al.
Ltac bset BT BF b BB := first [rewrite (BT b _ BB) by al | rewrite (BF b _ BB) by al].
Ltac side_sgn SG k ZZ := destruct (SG k ltac:(apply ZZ; al)).
Lemma triangle_belongs p a b c inc tol : 0 <= tol -> tri2 a b c <> 0 ->
  (forall u v, is_side [a; b; c] u v -> ~ near_side tol p u v) ->
  exists r, polygon_point_belongs [a; b; c] p inc tol = Ok r /\ (r = true <-> in_triangle p a b c).
Proof.
  intros T D NN.
  assert (SI : forall u v, is_side [a; b; c] u v <-> In (u, v) [(a, b); (b, c); (c, a)]).
  { intros. rewrite <- sides_In. cbn. tauto. }
  assert (ND : no_degenerate_side [a; b; c]).
  { intros u v S. apply SI in S. cbn in S. destruct S as [S|[S|[S|[]]]]; injection S as <- <-; intros ->; apply D; unfold tri2; ring. }
  destruct (belongs_cases [a; b; c] p inc tol T ND) as [[(u & v & S & N) _]|[_ (n & C & E)]]; [exfalso; eapply NN; eauto|].
  exists (Nat.odd n). split; auto. clear E.
  assert (NO : forall u v, In (u, v) [(a, b); (b, c); (c, a)] -> ~ on_segment p u v).
  { intros u v I O. apply SI in I. apply (NN _ _ I). apply near_on; auto. }
  assert (O1 : ~ on_segment p a b) by (apply NO; cbn; auto).
  assert (O2 : ~ on_segment p b c) by (apply NO; cbn; auto).
  assert (O3 : ~ on_segment p c a) by (apply NO; cbn; auto).
  pose proof (half_on p a b) as Z1. pose proof (half_on p b c) as Z2. pose proof (half_on p c a) as Z3.
  cbn [sides sides_from] in C. apply counts3 in C as (b1 & b2 & b3 & C1 & C2 & C3 & ->).
  rewrite in_triangle_sign by auto. rewrite ray_sign in C1, C2, C3.
  destruct (bary_id p a b c) as (Y & _ & S).
  assert (DZ : y2 a = y2 b -> y2 a = y2 c -> tri2 a b c = 0) by (intros Q1 Q2; unfold tri2; rewrite <- Q1, <- Q2; ring).
  assert (F1 := fun q1 q2 q3 => flat_out p a b c q1 q2 q3 O1). assert (F2 := fun q1 q2 q3 => flat_out p b c a q1 q2 q3 O2).
  assert (F3 := fun q1 q2 q3 => flat_out p c a b q1 q2 q3 O3).
  set (w := tri2 a b p) in *. set (u := tri2 b c p) in *. set (v := tri2 c a p) in *.
  clearbody w u v. clear NN SI ND NO T.
  assert (Z1' : (y2 a < y2 p <= y2 b \/ y2 b < y2 p <= y2 a) -> w <> 0) by (intros Q1 Q2; auto).
  assert (Z2' : (y2 b < y2 p <= y2 c \/ y2 c < y2 p <= y2 b) -> u <> 0) by (intros Q1 Q2; auto).
  assert (Z3' : (y2 c < y2 p <= y2 a \/ y2 a < y2 p <= y2 c) -> v <> 0) by (intros Q1 Q2; auto).
  clear Z1 Z2 Z3 O1 O2 O3.
  remember (y2 a) as ya. remember (y2 b) as yb. remember (y2 c) as yc. remember (y2 p) as y. clear Heqya Heqyb Heqyc Heqy.
  remember (tri2 a b c) as d. clear Heqd a b c p inc n.
  assert (SG : forall k, k <> 0 -> 0 < k \/ k < 0) by (intros; lra).
  rename C1 into B1, C2 into B2, C3 into B3.
  assert (BF : forall (bb : bool) (Q : Prop), (bb = true <-> Q) -> ~ Q -> bb = false) by (intros [] Q H1 H2; tauto).
  assert (BT : forall (bb : bool) (Q : Prop), (bb = true <-> Q) -> Q -> bb = true) by (intros [] Q H1 H2; tauto).
  assert (NA : forall Q, ((0 < w /\ 0 < u /\ 0 < v) \/ (w < 0 /\ u < 0 /\ v < 0) -> False) -> Q = false -> (Q = true <-> (0 < w /\ 0 < u /\ 0 < v) \/ (w < 0 /\ u < 0 /\ v < 0))).
  { intros Q H1 ->. split; [discriminate|tauto]. }
  assert (PA : ((0 < w /\ 0 < u /\ 0 < v) \/ (w < 0 /\ u < 0 /\ v < 0)) <-> ((0 < u /\ 0 < v /\ 0 < w) \/ (u < 0 /\ v < 0 /\ w < 0))) by tauto.
  assert (PB : ((0 < w /\ 0 < u /\ 0 < v) \/ (w < 0 /\ u < 0 /\ v < 0)) <-> ((0 < v /\ 0 < w /\ 0 < u) \/ (v < 0 /\ w < 0 /\ u < 0))) by tauto.
  destruct (Rle_dec y ya) as [A|A], (Rle_dec y yb) as [B|B], (Rle_dec y yc) as [C|C].
  - (* all above *) rewrite (BF b1 _ B1), (BF b2 _ B2), (BF b3 _ B3) by al. apply NA; auto. intros [H|H].
    + destruct (pos_mul3 w u v (yc - y) (ya - y) (yb - y)) as (? & ? & ?); try al.
      apply D. apply DZ; al.
    + destruct (pos_mul3 (-w) (-u) (-v) (yc - y) (ya - y) (yb - y)) as (? & ? & ?); try al.
      apply D. apply DZ; al.
  - rewrite (BF b1 _ B1) by al. rewrite (lone u v w (ya - y) (yb - y) (yc - y)); [|al|apply Z2'; al|apply Z3'; al|first [left; al | right; repeat split; try al; intros; apply F1; al]].
    side_sgn SG u Z2'; side_sgn SG v Z3'; bset BT BF b2 B2; bset BT BF b3 B3; tri_end.
  - rewrite (BF b3 _ B3) by al. rewrite PB, (lone w u v (yc - y) (ya - y) (yb - y)); [|al|apply Z1'; al|apply Z2'; al|first [left; al | right; repeat split; try al; intros; apply F3; al]].
    side_sgn SG w Z1'; side_sgn SG u Z2'; bset BT BF b1 B1; bset BT BF b2 B2; tri_end.
  - rewrite (BF b2 _ B2) by al. rewrite PA, (lone v w u (yb - y) (yc - y) (ya - y)); [|al|apply Z3'; al|apply Z1'; al|first [left; al | right; repeat split; try al; intros; apply F2; al]].
    side_sgn SG w Z1'; side_sgn SG v Z3'; bset BT BF b1 B1; bset BT BF b3 B3; tri_end.
  - rewrite (BF b2 _ B2) by al. rewrite PA, (lone v w u (yb - y) (yc - y) (ya - y)); [|al|apply Z3'; al|apply Z1'; al|first [left; al | right; repeat split; try al; intros; apply F2; al]].
    side_sgn SG w Z1'; side_sgn SG v Z3'; bset BT BF b1 B1; bset BT BF b3 B3; tri_end.
  - rewrite (BF b3 _ B3) by al. rewrite PB, (lone w u v (yc - y) (ya - y) (yb - y)); [|al|apply Z1'; al|apply Z2'; al|first [left; al | right; repeat split; try al; intros; apply F3; al]].
    side_sgn SG w Z1'; side_sgn SG u Z2'; bset BT BF b1 B1; bset BT BF b2 B2; tri_end.
  - rewrite (BF b1 _ B1) by al. rewrite (lone u v w (ya - y) (yb - y) (yc - y)); [|al|apply Z2'; al|apply Z3'; al|first [left; al | right; repeat split; try al; intros; apply F1; al]].
    side_sgn SG u Z2'; side_sgn SG v Z3'; bset BT BF b2 B2; bset BT BF b3 B3; tri_end.
  - (* all below *) rewrite (BF b1 _ B1), (BF b2 _ B2), (BF b3 _ B3) by al. apply NA; auto. intros [H|H].
    + destruct (pos_mul3 w u v (y - yc) (y - ya) (y - yb)) as (? & ? & ?); try al.
    + destruct (pos_mul3 (-w) (-u) (-v) (y - yc) (y - ya) (y - yb)) as (? & ? & ?); try al.
Qed.
