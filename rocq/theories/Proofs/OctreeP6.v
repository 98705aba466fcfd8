From Verif.Model Require Import Base FloodFill VoxelMatrix Octree.
From Verif.Spec Require Import OctreeSpec.
From Verif.Proofs Require Import FloodFillP VoxelP OctreeP OctreeP2 OctreeP3 OctreeP4 OctreeP5.
From Coq Require Import Lia.
Open Scope Z_scope.

(** Inner growing export *)
Definition ext_inner (layer : pt3 -> Z) (thickness : Z) : nat -> list pt3 -> bool := fun m s => (m =? 0)%nat && forallb (fun p => thickness <=? layer p) s.
Lemma del_set d a b s : a <> b -> dict_del Z.eqb (dict_set Z.eqb d a s) b = dict_set Z.eqb (dict_del Z.eqb d b) a s.
Proof.
  intros N. unfold dict_set, dict_del.
  assert (X : existsb (fun e : Z * list pt3 => a =? fst e) (filter (fun e => negb (b =? fst e)) d) = existsb (fun e => a =? fst e) d).
  { induction d as [|e d IH]; cbn [filter existsb]; [reflexivity|]. destruct (Z.eqb_spec b (fst e)) as [E|E]; cbn [negb existsb]; rewrite IH; [|reflexivity]. destruct (Z.eqb_spec a (fst e)); [congruence|reflexivity]. }
  rewrite X. destruct (existsb (fun e => a =? fst e) d).
  - clear X. induction d as [|e d IH]; cbn [filter map]; [reflexivity|]. destruct (Z.eqb_spec a (fst e)) as [E|E]; cbn [fst].
    + destruct (Z.eqb_spec b (fst e)); [congruence|]. cbn [negb map]. rewrite (proj2 (Z.eqb_eq a (fst e)) E). rewrite IH. reflexivity.
    + destruct (b =? fst e) eqn:B; cbn [negb map]; rewrite IH; [reflexivity|]. destruct (Z.eqb_spec a (fst e)); [congruence|reflexivity].
  - rewrite filter_app. cbn [filter fst]. destruct (Z.eqb_spec b a); [congruence|]. reflexivity.
Qed.
Lemma inner_gen w layer th n : 0 < w -> forall c t, inner_growing n (SZ w n) c t layer th = G (ext_inner layer th) w n c t.
Proof.
  intros Hw. induction n as [|m IH]; intros c t; [reflexivity|]. rewrite G_S. cbn [inner_growing]. cbv zeta.
  replace (round2 (SZ w (S m))) with (SZ w m) by (symmetry; apply half_size).
  assert (X : fold_left (fun d o => if truthy (kid t (oindex o)) then dict_merge Z.eqb d (inner_growing m (SZ w m) (sub_center c (SZ w m) o) (kid t (oindex o)) layer th) else d) octants [] = merged (ext_inner layer th) w m c t).
  { unfold merged. apply fold_ext. intros d o. rewrite <- IH. unfold SZ at 2. rewrite sub_center_cc. reflexivity. }
  rewrite X. fold (sibs (ext_inner layer th) w m c t). unfold ext_inner at 7. rewrite <- andb_assoc. rewrite del_set; [reflexivity|]. pose proof (SZ_lt w m (S m) Hw). lia.
Qed.
Lemma voxel_sib w c p : 0 < w -> ongrid w 1 c p -> p = cc w 0 c (octant_of c p).
Proof. intros Hw H. apply ongrid_child in H; [|assumption]. rewrite <- cube_0 in H. apply cube_self in H. assumption. Qed.
Lemma inner_sound w layer th n : 0 < w -> forall c t s q, dict_has (G (ext_inner layer th) w n c t) s q -> s = SZ w 0 \/ (s = SZ w 1 /\ forall p, ongrid w n c p -> in_cube s q p -> th <= layer p).
Proof.
  intros Hw. induction n as [|m IH]; intros c t s q H.
  - left. unfold G in H. cbn [gen] in H. apply has_cons in H as [[<- _]|H]; [reflexivity|]. destruct (proj1 (has_nil s q) H).
  - rewrite G_S in H.
    assert (M : dict_has (merged (ext_inner layer th) w m c t) s q -> s = SZ w 0 \/ (s = SZ w 1 /\ forall p, ongrid w (S m) c p -> in_cube s q p -> th <= layer p)).
    { intros K. apply merged_has in K as (o & Ho & T & K). pose proof K as K0. apply IH in K as [K|[K L]]; [left; assumption|]. right. split; [assumption|]. intros p Hp Hin. apply L; [|assumption]. pose proof (ongrid_child w m c p Hw Hp) as Hc. replace o with (octant_of c p); [assumption|].
      destruct (inv (ext_inner layer th) w Hw m (cc w m c o) (kid t (oindex o))) as (IA & _ & _). destruct (IA s q K0) as (i & Hi & -> & Hq). apply (cube_in w m i _ _ p Hw Hi Hq) in Hin. apply in_cube_octant in Hin; assumption. }
    destruct ((length (sibs (ext_inner layer th) w m c t) =? 8)%nat && ext_inner layer th m (sibs (ext_inner layer th) w m c t)) eqn:X; [|apply M; assumption].
    apply andb_true_iff in X as [X1 X2]. apply Nat.eqb_eq in X1. unfold ext_inner in X2 at 1. apply andb_true_iff in X2 as [X2 X3]. apply Nat.eqb_eq in X2. subst m. rewrite forallb_forall in X3.
    apply (set_has Z.eqb Zeqb_spec) in H as [[H N]|[-> Hq]]; [apply (del_has Z.eqb Zeqb_spec) in H as [H _]; apply M; assumption|]. right. split; [reflexivity|]. intros p Hp _.
    apply Z.leb_le. apply X3. rewrite (voxel_sib w c p Hw Hp). assert (I : incl (map (cc w 0 c) octants) (sibs (ext_inner layer th) w 0 c t)) by (apply NoDup_length_incl; [apply sibs_nodup|rewrite X1; cbn; lia|apply sibs_sub; assumption]). apply I. apply in_map, octant_of_in.
Qed.
Lemma inner_complete w layer th n : 0 < w -> forall c t q, (1 <= n)%nat -> cube w n 1 c q -> (forall p, ongrid w n c p -> in_cube (SZ w 1) q p -> In p (LC w n c t) /\ th <= layer p) -> dict_has (G (ext_inner layer th) w n c t) (SZ w 1) q.
Proof.
  intros Hw. induction n as [|m IH]; intros c t q Hn Hq F; [lia|]. destruct m as [|m].
  - apply cube_self in Hq. subst q. rewrite G_S.
    assert (V : forall o, In o octants -> ongrid w 1 c (cc w 0 c o) /\ octant_of c (cc w 0 c o) = o).
    { intros o Ho. assert (Hg : ongrid w 0 (cc w 0 c o) (cc w 0 c o)) by (rewrite <- cube_0; apply cube_self; reflexivity). split; [apply ongrid_parent with o; assumption|]. apply ongrid_in in Hg; [|assumption]. apply in_cube_octant in Hg; assumption. }
    assert (I8 : incl (map (cc w 0 c) octants) (sibs (ext_inner layer th) w 0 c t)).
    { intros x Hx. apply in_map_iff in Hx as (o & <- & Ho). destruct (V o Ho) as [Vg Vo]. destruct (F _ Vg (ongrid_in w 1 c _ Hw Vg)) as [L _]. apply LC_child in L as [T _]; [|assumption]. rewrite Vo in T. apply sibs_in. apply merged_has. exists o. split; [assumption|]. split; [assumption|]. exists [cc w 0 c o]. split; left; reflexivity. }
    rewrite (sibs_eight (ext_inner layer th) w Hw 0 c t I8). assert (X : ext_inner layer th 0 (sibs (ext_inner layer th) w 0 c t) = true).
    { unfold ext_inner at 1. cbn [Nat.eqb andb]. apply forallb_forall. intros x Hx. apply sibs_sub in Hx; [|assumption]. apply in_map_iff in Hx as (o & <- & Ho). destruct (V o Ho) as [Vg Vo]. apply Z.leb_le. apply (F _ Vg (ongrid_in w 1 c _ Hw Vg)). }
    rewrite X. cbn [Nat.eqb andb]. apply (set_has Z.eqb Zeqb_spec). right. split; [reflexivity|left; reflexivity].
  - rewrite G_S. unfold ext_inner at 2. cbn [Nat.eqb andb]. rewrite andb_false_r. assert (Hi' : (1 <= S m)%nat) by lia. set (o := octant_of c q). pose proof (cube_child w (S m) 1 c q Hw Hi' Hq) as Hq'. fold o in Hq'.
    assert (Fo : forall p, in_cube (SZ w 1) q p -> octant_of c p = o). { intros p Hp. apply (cube_in w (S m) 1 (cc w (S m) c o) q p Hw Hi' Hq') in Hp. apply in_cube_octant in Hp; [assumption|assumption|apply octant_of_in]. }
    assert (Fl : forall p, ongrid w (S m) (cc w (S m) c o) p -> in_cube (SZ w 1) q p -> truthy (kid t (oindex o)) = true /\ In p (LC w (S m) (cc w (S m) c o) (kid t (oindex o))) /\ th <= layer p).
    { intros p Hp Hin. destruct (F p) as [L Lt]; [apply ongrid_parent with o; [assumption|apply octant_of_in|assumption]|assumption|]. apply LC_child in L; [|assumption]. rewrite (Fo p Hin) in L. destruct L as [L1 L2]. auto. }
    apply merged_has. exists o. split; [apply octant_of_in|]. split; [destruct (cube_voxel w (S m) 1 (cc w (S m) c o) q Hw Hi' Hq') as (p & Hp & Hin); apply (Fl p Hp Hin)|]. apply IH; [lia|assumption|]. intros p Hp Hin. apply (Fl p Hp Hin).
Qed.
Lemma inner_G {T} (a : octree T) layer th w : 0 < w -> o_size a = 2 * w ->
  inner_growing (o_depth a) (o_size a * 2 ^ Z.of_nat (o_depth a)) (o_center a) (o_tree a) layer th = G (ext_inner layer th) w (o_depth a) (o_center a) (o_tree a).
Proof. intros Hw Hs. rewrite Hs. apply inner_gen. assumption. Qed.
Lemma inner_export {T} (a : octree T) layer th : 0 < o_size a -> Z.even (o_size a) = true ->
  let d := octree_inner_growing a layer th in
  (forall s q, dict_has d s q -> octree_cube (o_size a) (o_depth a) (o_center a) s q) /\
  (forall p, In p (octree_centers a) -> exists s q, dict_has d s q /\ in_cube s q p /\ forall s' q', dict_has d s' q' -> in_cube s' q' p -> s' = s /\ q' = q) /\
  (forall s q p, dict_has d s q -> octree_voxel (o_size a) (o_depth a) (o_center a) p -> in_cube s q p -> In p (octree_centers a)) /\
  (forall s q, dict_has d s q -> s = o_size a \/ s = 2 * o_size a) /\
  (forall q, octree_cube (o_size a) (o_depth a) (o_center a) (2 * o_size a) q ->
     (dict_has d (2 * o_size a) q <-> forall p, octree_voxel (o_size a) (o_depth a) (o_center a) p -> in_cube (2 * o_size a) q p -> In p (octree_centers a) /\ th <= layer p)).
Proof.
  intros H1 H2. destruct (even_half _ H1 H2) as (w & Hs & Hw). rewrite (inner_G a layer th w Hw Hs : octree_inner_growing a layer th = _). intros d. pose proof (gen_export (ext_inner layer th) a w Hs Hw) as (X1 & X2 & X3). fold d in X1, X2, X3.
  split; [exact X1|]. split; [exact X2|]. split; [exact X3|].
  assert (S0 : SZ w 0 = o_size a) by (rewrite Hs; unfold SZ; change (2 ^ Z.of_nat 0) with 1; ring). assert (S1 : SZ w 1 = 2 * o_size a) by (rewrite SZ_S, S0; reflexivity).
  split.
  - intros s q H. apply (inner_sound w layer th _ Hw) in H as [H|[H _]]; [left|right]; congruence.
  - intros q Hc. split.
    + intros H p Hv Hin. split; [apply (X3 _ q p H Hv Hin)|]. rewrite <- S1 in H. pose proof (inner_sound w layer th _ Hw _ _ _ _ H) as [K|[_ K]]; [apply SZ_inj in K; [discriminate|assumption]|]. apply K; [|rewrite S1; assumption]. rewrite Hs in Hv. apply octree_voxel_spec in Hv; assumption.
    + intros F. rewrite Hs in Hc. apply octree_cube_spec in Hc as (i & Hi & Hsz & Hq). rewrite <- Hs, <- S1 in Hsz. apply SZ_inj in Hsz; [|assumption]. subst i. rewrite <- S1. apply inner_complete; [assumption|assumption|assumption|]. intros p Hp Hin. rewrite S1 in Hin.
      destruct (F p) as [F1 F2]; [rewrite Hs; apply octree_voxel_spec; assumption|assumption|]. split; [|assumption]. unfold octree_centers in F1. rewrite Hs in F1. exact F1.
Qed.

(** Pairs of triangle indices *)
Lemma eqb_pair_spec a b : eqb_pair a b = true <-> a = b.
Proof. unfold eqb_pair. rewrite andb_true_iff, !Z.eqb_eq. destruct a, b; cbn. split; [intros [-> ->]; reflexivity|intros E; apply pair_equal_spec in E; exact E]. Qed.
Lemma fold_set_has c ks : forall d k p, dict_has (fold_left (fun d k => dict_set eqb_pair d k [c]) ks d) k p <-> (In k ks /\ p = c) \/ (dict_has d k p /\ ~ In k ks).
Proof.
  induction ks as [|k0 ks IH]; intros d k p; cbn [fold_left]; [cbn; tauto|]. rewrite IH, (set_has eqb_pair eqb_pair_spec). cbn.
  assert (Dec : k0 = k \/ k0 <> k) by (destruct (eqb_pair k0 k) eqn:X; [left; apply eqb_pair_spec; assumption|right; intros Y; apply eqb_pair_spec in Y; congruence]).
  assert (Dec2 : In k ks \/ ~ In k ks). { destruct (in_dec (fun a b => match eqb_pair a b as x return (eqb_pair a b = x -> {a = b} + {a <> b}) with true => fun e => left (proj1 (eqb_pair_spec a b) e) | false => fun e => right (fun Y => eq_ind false (fun x => if x then False else True) I true (eq_trans (eq_sym e) (proj2 (eqb_pair_spec a b) Y))) end eq_refl) k ks); tauto. }
  intuition congruence.
Qed.
Lemma intersections_E w th n : 0 < w -> forall c t k p, dict_has (intersections n (SZ w n) c t th) k p <-> In k (filter (kept th) (combinations2 (E w n c t p))).
Proof.
  intros Hw. induction n as [|m IH]; intros c t k p.
  - cbn [intersections E]. rewrite fold_set_has, has_nil. destruct (eqb3 p c) eqn:X.
    + apply eqb3_spec in X. subst. tauto.
    + cbn. split; [|intros []]. intros [[_ ->]|[[] _]]. rewrite eqb3_refl in X. discriminate.
  - cbn [intersections E]. cbv zeta. replace (round2 (SZ w (S m))) with (SZ w m) by (symmetry; apply half_size). rewrite (fold_octants eqb_pair eqb_pair_spec), has_nil. split.
    + intros [[]|(o & Ho & T & H)]. unfold SZ at 2 in H. rewrite sub_center_cc in H. apply IH in H. replace (octant_of c p) with o; [assumption|].
      assert (N : E w m (cc w m c o) (kid t (oindex o)) p <> []) by (intros Y; rewrite Y in H; destruct H). apply E_near in N; [|assumption]. apply near_cc in N as [_ N]; [symmetry; assumption|assumption|assumption].
    + intros H. right. exists (octant_of c p). split; [apply octant_of_in|]. split.
      * destruct (truthy (kid t (oindex (octant_of c p)))) eqn:T; [reflexivity|]. rewrite (E_falsy w m _ _ p T) in H. destruct H.
      * unfold SZ at 2. rewrite sub_center_cc. apply IH. assumption.
Qed.
Lemma combinations2_in l : NoDup l -> forall i j, In (i, j) (combinations2 l) <-> i < j /\ In i l /\ In j l.
Proof.
  induction l as [|a l IH]; intros N i j; cbn [combinations2]; [cbn; tauto|]. inversion N as [|? ? N1 N2]; subst. rewrite in_app_iff, IH by assumption. rewrite in_map_iff. split.
  - intros [(b & X & Hb)|(L & Hi & Hj)]; [|cbn; auto]. assert (a <> b) by congruence. destruct (Z.leb_spec a b); apply pair_equal_spec in X as [<- <-]; (split; [lia|]); cbn; auto.
  - intros (L & [-> |Hi] & [Hj|Hj]); [lia| | |right; auto].
    + left. exists j. split; [|assumption]. destruct (Z.leb_spec i j); [reflexivity|lia].
    + subst a. left. exists i. split; [|assumption]. destruct (Z.leb_spec j i); [lia|reflexivity].
Qed.
Lemma intersections_spec {T} (a : octree T) th i j p : 0 < o_size a -> Z.even (o_size a) = true -> NoDup (voxel_entries a p) ->
  dict_has (octree_intersections a th) (i, j) p <->
    i < j /\ In i (voxel_entries a p) /\ In j (voxel_entries a p) /\ match th with Some t => t <> 0 -> i < t <= j | None => True end.
Proof.
  intros H1 H2 N. destruct (even_half _ H1 H2) as (w & Hs & Hw). unfold octree_intersections. rewrite Hs. rewrite (intersections_E w th _ Hw). rewrite <- (voxel_entries_E a w p Hs). rewrite filter_In, (combinations2_in _ N).
  assert (K : kept th (i, j) = true <-> match th with Some t => t <> 0 -> i < t <= j | None => True end); [|rewrite K; tauto].
  unfold kept. destruct th as [t|]; [|tauto]. cbn [fst snd]. destruct (Z.eqb_spec t 0); [split; [congruence|reflexivity]|]. rewrite andb_true_iff, Z.ltb_lt, Z.leb_le. lia.
Qed.
(** The pairs used by intersecting_faces_combinations *)
Lemma face_pairs {T} (a b : octree T) u : valid_octree a -> valid_octree b -> octree_intersection a b = Ok u ->
  (forall p, NoDup (voxel_entries a p)) -> (forall p, NoDup (voxel_entries b p)) ->
  (forall p i, In i (voxel_entries a p) -> 0 <= i < Z.of_nat (length (o_triangles a))) -> (forall p i, In i (voxel_entries b p) -> 0 <= i) ->
  forall i j p, dict_has (octree_intersections u (Some (Z.of_nat (length (o_triangles a))))) (i, j) p <->
    In i (voxel_entries a p) /\ In (j - Z.of_nat (length (o_triangles a))) (voxel_entries b p).
Proof.
  intros Va Vb Hu Na Nb Ba Bb i j p. destruct (Z.eq_dec (o_size a) (o_size b)) as [S|N]; [|destruct (op_size_error a b N) as (_ & _ & X & _); congruence].
  destruct (intersection_entries a b Va Vb S) as (u' & E1 & Vu & _ & _ & H). rewrite Hu in E1. apply Ok_inj in E1. subst u'. destruct (H p) as [H0 H1]. set (n := Z.of_nat (length (o_triangles a))) in *.
  assert (Nu : NoDup (voxel_entries u p)).
  { destruct (voxel_entries a p) as [|x la] eqn:Ea; [rewrite H0 by auto; constructor|]. destruct (voxel_entries b p) as [|y lb] eqn:Eb; [rewrite H0 by auto; constructor|]. rewrite H1 by discriminate. rewrite <- Ea, <- Eb.
    clear - Na Nb Ba Bb. specialize (Na p). specialize (Nb p). specialize (Ba p). specialize (Bb p). revert Na Ba. generalize (voxel_entries a p). induction l as [|z l IH]; intros N1 B1.
    - cbn [app]. revert Nb. clear. generalize (voxel_entries b p). induction l as [|z l IH]; intros N; [constructor|]. inversion N; subst. cbn [map]. constructor; [|apply IH; assumption]. intros X. apply in_map_iff in X as (y & Y & X). assert (y = z) by lia. subst. contradiction.
    - inversion N1; subst. cbn [app]. constructor; [|apply IH; [assumption|intros; apply B1; right; assumption]]. rewrite in_app_iff. intros [X|X]; [contradiction|]. apply in_map_iff in X as (y & Y & X). apply Bb in X. specialize (B1 z (or_introl eq_refl)). lia. }
  rewrite (intersections_spec u _ i j p); [|apply Vu|apply Vu|assumption].
  destruct (voxel_entries a p) as [|x la] eqn:Ea; [rewrite H0 by auto; cbn; tauto|]. destruct (voxel_entries b p) as [|y lb] eqn:Eb; [rewrite H0 by auto; cbn; tauto|]. rewrite H1 by discriminate. rewrite <- Ea, <- Eb in *.
  assert (n <> 0). { assert (In x (voxel_entries a p)) by (rewrite Ea; left; reflexivity). apply Ba in H2. lia. }
  assert (Im : forall k, In k (map (fun i0 => i0 + n) (voxel_entries b p)) <-> In (k - n) (voxel_entries b p)).
  { intros k. rewrite in_map_iff. split; [intros (z & <- & Hz); replace (z + n - n) with z by ring; assumption|intros Hz; exists (k - n); split; [ring|assumption]]. }
  rewrite !in_app_iff, !Im. split.
  - intros (L & Hi & Hj & HK). specialize (HK H2). split; [destruct Hi as [Hi|Hi]; [assumption|apply Bb in Hi; lia]|destruct Hj as [Hj|Hj]; [apply Ba in Hj; lia|assumption]].
  - intros [Hi Hj]. pose proof (Ba _ _ Hi). pose proof (Bb _ _ Hj). split; [lia|]. split; [left; assumption|]. split; [right; assumption|lia].
Qed.

(** from_triangles *)
Lemma quarter_eq w m : (match m with O => round2 (2 * w) | S k => 2 * w * 2 ^ Z.of_nat k end) = w * 2 ^ Z.of_nat m.
Proof. destruct m as [|m]; [change (2 ^ Z.of_nat 0) with 1; rewrite round2_even; ring|]. rewrite pow_S. ring. Qed.
Fixpoint chain (hit : Z -> pt3 -> Z -> bool) (w : Z) (n : nat) (c p : pt3) (i : Z) : bool :=
  match n with O => true | S m => let q := cc w m c (octant_of c p) in hit i q (w * 2 ^ Z.of_nat m) && chain hit w m q p i end.
Lemma filter_filter' {A} (f g : A -> bool) l : filter g (filter f l) = filter (fun x => f x && g x) l.
Proof. induction l as [|a l IH]; [reflexivity|]. cbn [filter]. destruct (f a); cbn [filter andb]; [destruct (g a)|]; rewrite IH; reflexivity. Qed.
Lemma filter_true {A} (l : list A) : filter (fun _ => true) l = l.
Proof. induction l as [|a l IH]; [reflexivity|]. cbn [filter]. rewrite IH. reflexivity. Qed.
Lemma triangles_E hit w n : 0 < w -> forall c idx p, ongrid w n c p -> E w n c (subdivide_triangles n (2 * w) hit c idx) p = filter (chain hit w n c p) idx.
Proof.
  intros Hw. induction n as [|m IH]; intros c idx p Hp.
  - cbn [E subdivide_triangles chain indices]. rewrite <- cube_0 in Hp. apply cube_self in Hp. subst p. rewrite eqb3_refl, filter_true. reflexivity.
  - cbn [E subdivide_triangles chain]. rewrite quarter_eq. cbv zeta. set (o := octant_of c p).
    set (f := fun o => match filter (fun i => hit i (sub_center c (2 * w * 2 ^ Z.of_nat m) o) (w * 2 ^ Z.of_nat m)) idx with [] => Leafs [] | l => subdivide_triangles m (2 * w) hit (sub_center c (2 * w * 2 ^ Z.of_nat m) o) l end).
    assert (K : E w m (cc w m c o) (kid (if forallb (fun s => negb (truthy s)) (map f octants) then Leafs [] else Kids (map f octants)) (oindex o)) p = E w m (cc w m c o) (f o) p).
    { destruct (forallb (fun s => negb (truthy s)) (map f octants)) eqn:X; [|rewrite kid_map by apply octant_of_in; reflexivity]. cbn [kid]. rewrite E_nil. rewrite E_falsy; [reflexivity|]. rewrite forallb_forall in X. apply negb_true_iff. apply X. apply in_map. apply octant_of_in. }
    rewrite K. clear K. pose proof (ongrid_child w m c p Hw Hp) as Hc. fold o in Hc. rewrite <- filter_filter'. unfold f. rewrite sub_center_cc.
    destruct (filter (fun i => hit i (cc w m c o) (w * 2 ^ Z.of_nat m)) idx) as [|i0 l0] eqn:Fl; [rewrite E_nil; reflexivity|]. rewrite <- Fl. apply IH. assumption.
Qed.
Lemma near_closed r c p : near r c p <-> in_closed_cube r c p. Proof. destruct c as [[a b] d], p as [[x y] z]. reflexivity. Qed.
Lemma chain_monotone (hit : Z -> pt3 -> Z -> bool) w i : 0 < w -> (forall c h c' h', (forall p, in_closed_cube h c p -> in_closed_cube h' c' p) -> 0 < h -> hit i c h = true -> hit i c' h' = true) ->
  forall n c p, ongrid w n c p -> hit i p w = true -> chain hit w n c p i = true.
Proof.
  intros Hw M. induction n as [|m IH]; intros c p Hp H; [reflexivity|]. cbn [chain]. apply ongrid_child in Hp; [|assumption]. apply andb_true_iff. split; [|apply IH; assumption].
  apply (M p w); [|assumption|assumption]. intros q. rewrite <- !near_closed. intros N. rewrite <- cube_0 in Hp. apply cube_near in Hp; [|assumption|lia]. change (2 ^ Z.of_nat 0) with 1 in Hp.
  replace (w * 2 ^ Z.of_nat m) with ((w * 2 ^ Z.of_nat m - w * 1) + w) by ring. eapply near_trans; eassumption.
Qed.
Lemma chain_leaf (hit : Z -> pt3 -> Z -> bool) w i : forall m c p, ongrid w (S m) c p -> 0 < w -> chain hit w (S m) c p i = true -> hit i p w = true.
Proof.
  induction m as [|m IH]; intros c p Hp Hw H; cbn [chain] in H; apply andb_true_iff in H as [H1 H2].
  - rewrite <- (voxel_sib w c p Hw Hp) in H1. change (2 ^ Z.of_nat 0) with 1 in H1. rewrite Z.mul_1_r in H1. assumption.
  - apply IH with (c := cc w (S m) c (octant_of c p)); [apply ongrid_child; assumption|assumption|]. cbn [chain]. exact H2.
Qed.
Lemma from_triangles_spec hit triangles v : 0 < v -> Z.even v = true -> monotone_hit hit -> local_hit hit -> triangles <> [] ->
  exists a, octree_from_triangles hit triangles v = Ok a /\ o_size a = v /\ o_triangles a = triangles /\ o_center a = origin3 /\ (1 <= o_depth a)%nat /\
    forall p, grid_center v p -> forall i, In i (voxel_entries a p) <-> exists t, nth_error triangles (Z.to_nat i) = Some t /\ 0 <= i /\ hit t p (v / 2) = true.
Proof.
  intros Hv He Mono Loc Hne. destruct (even_half v Hv He) as (w & -> & Hw). replace (2 * w / 2) with w by (symmetry; rewrite Z.mul_comm; apply Z.div_mul; lia). unfold octree_from_triangles. cbv zeta.
  set (coords := flat_map tri_coords triangles).
  assert (C : forall t x, In t triangles -> In x (tri_coords t) -> In x coords) by (intros t x H1 H2; apply in_flat_map; exists t; split; assumption).
  destruct coords as [|a l] eqn:Ec. { destruct triangles as [|t tr]; [congruence|]. exfalso. destruct t as [[[[x1 y1] z1] [[x2 y2] z2]] [[x3 y3] z3]]. eapply (C _ x1); [left; reflexivity|left; reflexivity]. }
  destruct (lmin_map (fun x => x) a l) as [(qm & Im & Em) Hm]. destruct (lmax_map (fun x => x) a l) as [(qM & IM & EM) HM]. rewrite map_id in *.
  set (mn := lmin a l) in *. set (mx := lmax a l) in *. set (M := Z.max (Z.abs (mn / (2 * w) - 2)) (Z.abs (mx / (2 * w) + 2))).
  assert (Lmx : mn <= mx) by (transitivity a; [apply Hm|apply HM]; left; reflexivity).
  assert (R : Z.max (Z.abs ((mn / (2 * w) - 2) * (2 * w))) (Z.abs ((mx / (2 * w) + 2) * (2 * w))) * 2 / (2 * w) = 2 * M).
  { rewrite (Z.abs_mul (mn / (2 * w) - 2) (2 * w)), (Z.abs_mul (mx / (2 * w) + 2) (2 * w)). rewrite (Z.abs_eq (2 * w)) by lia. rewrite Z.mul_max_distr_nonneg_r by lia. fold M. replace (M * (2 * w) * 2) with (2 * M * (2 * w)) by ring. apply Z.div_mul. lia. }
  rewrite R. set (d := Z.to_nat (Z.log2_up (2 * M))).
  assert (Hdiv : mn / (2 * w) <= mx / (2 * w)) by (apply Z.div_le_mono; lia).
  assert (HM2 : 2 <= M) by (unfold M; clear - Hdiv; generalize dependent (mx / (2 * w)); generalize (mn / (2 * w)); intros; lia).
  assert (Hlog : 2 * M <= 2 ^ Z.of_nat d). { unfold d. rewrite Z2Nat.id by apply Z.log2_up_nonneg. apply Z.log2_up_spec. lia. }
  clearbody d. assert (Hd : (1 <= d)%nat). { destruct d; [change (2 ^ Z.of_nat 0) with 1 in Hlog; clear - Hlog HM2; lia|lia]. }
  destruct d as [|m]; [lia|]. rewrite pow_S in Hlog.
  eexists. split; [reflexivity|]. cbn [o_size o_triangles o_center o_depth]. split; [reflexivity|]. split; [reflexivity|]. split; [reflexivity|]. split; [lia|].
  intros p Hp i. rewrite (voxel_entries_E _ w) by reflexivity. cbn [o_depth o_center o_tree].
  set (no := ((0, 0, 0), (0, 0, 0), (0, 0, 0))). set (hit' := fun i0 : Z => hit (nth (Z.to_nat i0) triangles no)).
  assert (Idx : forall j, In j (map Z.of_nat (seq 0 (length triangles))) <-> 0 <= j < Z.of_nat (length triangles)).
  { intros j. rewrite in_map_iff. split; [intros (k & <- & K); apply in_seq in K; lia|]. intros H. exists (Z.to_nat j). split; [lia|]. apply in_seq. lia. }
  assert (Nth : forall j, 0 <= j < Z.of_nat (length triangles) -> nth_error triangles (Z.to_nat j) = Some (nth (Z.to_nat j) triangles no)) by (intros j Hj; apply nth_error_nth'; lia).
  (* every grid voxel that a triangle meets is below the root *)
  assert (Root : forall t, In t triangles -> hit t p w = true -> ongrid w (S m) origin3 p).
  { intros t Ht Hh. destruct p as [[x y] z]. destruct Hp as (Gx & Gy & Gz). pose proof (Loc t x y z w Hh) as L.
    assert (K : forall b, b = x \/ b = y \/ b = z -> (exists k, 2 * b = 2 * w * (2 * k + 1)) -> exists k, 0 <= k < 2 ^ Z.of_nat (S m) /\ b = 0 - w * (2 ^ Z.of_nat (S m) - 1) + 2 * w * k).
    { intros b Hb (k & Hk). destruct (L b Hb) as (u & u' & Iu & Iu' & B). assert (mn <= u) by (apply Hm; apply (C t); assumption). assert (u' <= mx) by (apply HM; apply (C t); assumption). rewrite pow_S. set (e := 2 ^ Z.of_nat m) in *. exists (k + e).
      assert (mn / (2 * w) <= k + 1). { replace (k + 1) with ((b + w) / (2 * w)); [apply Z.div_le_mono; lia|]. symmetry. apply Z.div_unique with 0; lia. }
      assert (k <= mx / (2 * w)). { replace k with ((b - w) / (2 * w)); [apply Z.div_le_mono; lia|]. symmetry. apply Z.div_unique with 0; lia. }
      assert (M <= e) by lia. assert (Hk2 : - e <= k < e). { clear - H1 H2 H3. unfold M in H3. clear M. generalize dependent (mx / (2 * w)). generalize dependent (mn / (2 * w)). intros. lia. } split; [clear - Hk2; lia|]. clear - Hk. assert (b = w * (2 * k + 1)) by lia. subst b. ring. }
    split; [|split]; apply K; auto. }
  split.
  - intros H. assert (N : E w (S m) origin3 (subdivide_triangles (S m) (2 * w) hit' origin3 (map Z.of_nat (seq 0 (length triangles)))) p <> []) by (intros Y; rewrite Y in H; destruct H).
    assert (G : ongrid w (S m) origin3 p).
    { apply E_near in N; [|assumption]. destruct p as [[x y] z]. destruct Hp as (Gx & Gy & Gz). destruct N as (N1 & N2 & N3).
      assert (K : forall b, (exists k, 2 * b = 2 * w * (2 * k + 1)) -> Z.abs (b - 0) <= w * (2 ^ Z.of_nat (S m) - 1) -> exists k, 0 <= k < 2 ^ Z.of_nat (S m) /\ b = 0 - w * (2 ^ Z.of_nat (S m) - 1) + 2 * w * k).
      { intros b (k & Hk) Hb. rewrite pow_S in *. set (e := 2 ^ Z.of_nat m) in *. exists (k + e). assert (b = w * (2 * k + 1)) by lia. subst b. split; [|ring]. clear - Hb Hw. rewrite Z.sub_0_r in Hb. rewrite Z.abs_mul, (Z.abs_eq w) in Hb by lia. assert (Z.abs (2 * k + 1) <= 2 * e - 1) by nia. lia. }
      split; [|split]; apply K; assumption. }
    rewrite triangles_E in H by assumption. apply filter_In in H as [Hi Hc]. apply Idx in Hi. exists (nth (Z.to_nat i) triangles no). split; [apply Nth; assumption|]. split; [lia|]. apply (chain_leaf hit' w i m origin3 p G Hw Hc).
  - intros (t & Ht & Hi0 & Hh). assert (Hi : 0 <= i < Z.of_nat (length triangles)). { split; [assumption|]. assert (Z.to_nat i < length triangles)%nat by (apply nth_error_Some; congruence). lia. }
    assert (Et : nth (Z.to_nat i) triangles no = t) by (apply nth_error_nth; assumption). assert (G : ongrid w (S m) origin3 p) by (apply (Root t); [apply nth_error_In with (Z.to_nat i); assumption|assumption]).
    rewrite triangles_E by assumption. apply filter_In. split; [apply Idx; assumption|]. apply chain_monotone; [assumption| |assumption|unfold hit'; rewrite Et; assumption]. intros c h c' h' X X2. unfold hit'. apply Mono; assumption.
Qed.
