From Verif.Model Require Import Base FloodFill VoxelMatrix Octree.
From Verif.Spec Require Import OctreeSpec.
From Verif.Proofs Require Import FloodFillP VoxelP OctreeP OctreeP2 OctreeP3 OctreeP4.
From Coq Require Import Lia.
Open Scope Z_scope.

(** Cubes *)
Definition SZ (w : Z) (i : nat) : Z := 2 * w * 2 ^ Z.of_nat i.
Lemma SZ_S w i : SZ w (S i) = 2 * SZ w i. Proof. unfold SZ. rewrite pow_S. ring. Qed.
Lemma SZ_pos w i : 0 < w -> 0 < SZ w i. Proof. unfold SZ. pose proof (pow_pos i). nia. Qed.
Lemma SZ_lt w i j : 0 < w -> (i < j)%nat -> SZ w i < SZ w j.
Proof. intros Hw H. unfold SZ. assert (2 ^ Z.of_nat i < 2 ^ Z.of_nat j) by (apply Z.pow_lt_mono_r; lia). nia. Qed.
Lemma SZ_inj w i j : 0 < w -> SZ w i = SZ w j -> i = j.
Proof. intros Hw H. destruct (Nat.lt_trichotomy i j) as [L|[L|L]]; [|assumption|]; apply (SZ_lt w) in L; lia. Qed.
Lemma pow_split i n : (i <= n)%nat -> 2 ^ Z.of_nat n = 2 ^ Z.of_nat i * 2 ^ Z.of_nat (n - i).
Proof. intros H. rewrite <- Z.pow_add_r by lia. f_equal. lia. Qed.
Definition cube w n i c q := ongrid (w * 2 ^ Z.of_nat i) (n - i) c q.
Lemma on_near w n i cx x : 0 < w -> (i <= n)%nat -> (exists k, 0 <= k < 2 ^ Z.of_nat (n - i) /\ x = cx - w * 2 ^ Z.of_nat i * (2 ^ Z.of_nat (n - i) - 1) + 2 * (w * 2 ^ Z.of_nat i) * k) ->
  Z.abs (x - cx) <= w * 2 ^ Z.of_nat n - w * 2 ^ Z.of_nat i.
Proof. intros Hw Hi (k & Hk & ->). rewrite (pow_split i n Hi). pose proof (pow_pos i). set (a := 2 ^ Z.of_nat i) in *. set (b := 2 ^ Z.of_nat (n - i)) in *. assert (0 < w * a) by nia. set (u := w * a) in *. replace (w * (a * b)) with (u * b) by (unfold u; ring). clearbody u. nia. Qed.
Lemma cube_near w n i c q : 0 < w -> (i <= n)%nat -> cube w n i c q -> near (w * 2 ^ Z.of_nat n - w * 2 ^ Z.of_nat i) c q.
Proof. intros Hw Hi. destruct c as [[cx cy] cz], q as [[x y] z]. intros (A & B & C). unfold near. split; [|split]; apply on_near; assumption. Qed.
Lemma cube_self w n c q : cube w n n c q <-> q = c.
Proof.
  unfold cube. rewrite Nat.sub_diag. destruct c as [[cx cy] cz], q as [[x y] z]. unfold ongrid. change (2 ^ Z.of_nat 0) with 1. split.
  - intros ((k1 & A1 & ->) & (k2 & A2 & ->) & (k3 & A3 & ->)). assert (k1 = 0) by lia. assert (k2 = 0) by lia. assert (k3 = 0) by lia. subst. repeat apply (f_equal2 pair); lia.
  - intros E. apply pair_equal_spec in E as [E ->]. apply pair_equal_spec in E as [-> ->]. split; [|split]; exists 0; lia.
Qed.
Lemma cube_0 w n c p : cube w n 0 c p <-> ongrid w n c p.
Proof. unfold cube. change (2 ^ Z.of_nat 0) with 1. rewrite Z.mul_1_r, Nat.sub_0_r. reflexivity. Qed.
Lemma cc_scale w m i c o : (i <= m)%nat -> cc (w * 2 ^ Z.of_nat i) (m - i) c o = cc w m c o.
Proof. intros H. unfold cc. rewrite (pow_split i m H). destruct c as [[cx cy] cz], o as [[a b] d]. repeat apply (f_equal2 pair); ring. Qed.
Lemma cube_parent w m i c o q : 0 < w -> (i <= m)%nat -> In o octants -> cube w m i (cc w m c o) q -> cube w (S m) i c q.
Proof.
  intros Hw Hi Ho H. unfold cube in *. replace (S m - i)%nat with (S (m - i)) by lia. rewrite <- (cc_scale w m i c o Hi) in H. apply ongrid_parent in H; [assumption| |assumption]. pose proof (pow_pos i). nia.
Qed.
Lemma cube_child w m i c q : 0 < w -> (i <= m)%nat -> cube w (S m) i c q -> cube w m i (cc w m c (octant_of c q)) q.
Proof.
  intros Hw Hi H. unfold cube in *. replace (S m - i)%nat with (S (m - i)) in H by lia. rewrite <- (cc_scale w m i c _ Hi). apply ongrid_child; [|assumption]. pose proof (pow_pos i). nia.
Qed.
Lemma in_cube_near w i q p : in_cube (SZ w i) q p <-> near (w * 2 ^ Z.of_nat i - 1) q p.
Proof. destruct q as [[a b] d], p as [[x y] z]. unfold in_cube, near, SZ. rewrite <- Z.mul_assoc. lia. Qed.
Lemma near_trans r r' a b c : near r a b -> near r' b c -> near (r + r') a c.
Proof. destruct a as [[a1 a2] a3], b as [[b1 b2] b3], c as [[c1 c2] c3]. unfold near. intros (A & B & C) (A' & B' & C'). split; [|split]; lia. Qed.
Lemma cube_in w n i c q p : 0 < w -> (i <= n)%nat -> cube w n i c q -> in_cube (SZ w i) q p -> in_cube (SZ w n) c p.
Proof. intros Hw Hi H. rewrite !in_cube_near. intros N. replace (w * 2 ^ Z.of_nat n - 1) with ((w * 2 ^ Z.of_nat n - w * 2 ^ Z.of_nat i) + (w * 2 ^ Z.of_nat i - 1)) by ring. apply near_trans with q; [apply cube_near; assumption|assumption]. Qed.
Lemma in_cube_octant w m c o p : 0 < w -> In o octants -> in_cube (SZ w m) (cc w m c o) p -> octant_of c p = o.
Proof.
  intros Hw Ho. unfold SZ. pose proof (pow_pos m) as Hp. set (e := 2 ^ Z.of_nat m) in *. destruct c as [[cx cy] cz], p as [[x y] z]. assert (0 < w * e) by nia. unfold in_cube, cc, octant_of. fold e. rewrite <- !Z.mul_assoc.
  octcase o Ho; try change (2 * 0 - 1) with (-1); try change (2 * 1 - 1) with 1; intros (A & B & C); repeat apply (f_equal2 pair);
  match goal with |- (if ?a <? ?b then _ else _) = _ => destruct (Z.ltb_spec a b); lia end.
Qed.
Lemma ongrid_in w n c p : 0 < w -> ongrid w n c p -> in_cube (SZ w n) c p.
Proof. intros Hw H. rewrite <- cube_0 in H. apply (cube_in w n 0 c p p); [assumption|lia|assumption|]. destruct p as [[x y] z]. unfold in_cube, SZ. change (2 ^ Z.of_nat 0) with 1. rewrite !Z.sub_diag, Z.abs_0. lia. Qed.
Lemma on_voxel w n i cx x : 0 < w -> (i <= n)%nat -> (exists k, 0 <= k < 2 ^ Z.of_nat (n - i) /\ x = cx - w * 2 ^ Z.of_nat i * (2 ^ Z.of_nat (n - i) - 1) + 2 * (w * 2 ^ Z.of_nat i) * k) ->
  exists k, 0 <= k < 2 ^ Z.of_nat n /\ x - w * (2 ^ Z.of_nat i - 1) = cx - w * (2 ^ Z.of_nat n - 1) + 2 * w * k.
Proof.
  intros Hw Hi (k & Hk & ->). rewrite (pow_split i n Hi). pose proof (pow_pos i). set (a := 2 ^ Z.of_nat i) in *. set (b := 2 ^ Z.of_nat (n - i)) in *. exists (a * k). split; [nia|ring].
Qed.
(** An aligned cube has a voxel in it. *)
Lemma cube_voxel w n i c q : 0 < w -> (i <= n)%nat -> cube w n i c q -> exists p, ongrid w n c p /\ in_cube (SZ w i) q p.
Proof.
  intros Hw Hi. destruct c as [[cx cy] cz], q as [[x y] z]. intros (A & B & C). exists (x - w * (2 ^ Z.of_nat i - 1), y - w * (2 ^ Z.of_nat i - 1), z - w * (2 ^ Z.of_nat i - 1)). split.
  - split; [|split]; apply on_voxel; assumption.
  - pose proof (pow_pos i). unfold in_cube, SZ. set (a := 2 ^ Z.of_nat i) in *. assert (0 <= w * (a - 1)) by nia. split; [|split]; nia.
Qed.
Lemma LC_child w m c t p : 0 < w -> In p (LC w (S m) c t) <-> truthy (kid t (oindex (octant_of c p))) = true /\ In p (LC w m (cc w m c (octant_of c p)) (kid t (oindex (octant_of c p)))).
Proof.
  intros Hw. rewrite LC_S, in_flat_map. split.
  - intros (o & Ho & H). destruct (truthy (kid t (oindex o))) eqn:T; [|destruct H]. pose proof (LC_near w m Hw _ _ _ H) as N. apply near_cc in N as [_ N]; [|assumption|assumption]. rewrite N. split; assumption.
  - intros [T H]. exists (octant_of c p). split; [apply octant_of_in|]. rewrite T. assumption.
Qed.

(** Exports that merge eight full siblings when [ext] allows it *)
Fixpoint gen (ext : nat -> list pt3 -> bool) (n : nat) (size : Z) (c : pt3) (t : node) : sdict Z :=
  match n with
  | O => [(size, [c])]
  | S m =>
    let half := round2 size in
    let d := fold_left (fun d o => if truthy (kid t (oindex o)) then dict_merge Z.eqb d (gen ext m half (sub_center c half o) (kid t (oindex o))) else d) octants [] in
    if (length (dict_get Z.eqb d half) =? 8)%nat && ext m (dict_get Z.eqb d half) then dict_set Z.eqb (dict_del Z.eqb d half) size [c] else d
  end.
Definition G ext w n c t := gen ext n (SZ w n) c t.
Definition merged ext w m c t := fold_left (fun d o => if truthy (kid t (oindex o)) then dict_merge Z.eqb d (G ext w m (cc w m c o) (kid t (oindex o))) else d) octants [].
Definition sibs ext w m c t := dict_get Z.eqb (merged ext w m c t) (SZ w m).
Lemma fold_ext {A B} (f g : A -> B -> A) l : (forall a b, f a b = g a b) -> forall a, fold_left f l a = fold_left g l a.
Proof. intros H. induction l as [|b l IH]; intros a; cbn [fold_left]; [reflexivity|]. rewrite H. apply IH. Qed.
Lemma G_S ext w m c t : G ext w (S m) c t = if (length (sibs ext w m c t) =? 8)%nat && ext m (sibs ext w m c t) then dict_set Z.eqb (dict_del Z.eqb (merged ext w m c t) (SZ w m)) (SZ w (S m)) [c] else merged ext w m c t.
Proof.
  unfold G at 1. cbn [gen]. replace (round2 (SZ w (S m))) with (SZ w m) by (symmetry; apply half_size).
  assert (X : fold_left (fun d o => if truthy (kid t (oindex o)) then dict_merge Z.eqb d (gen ext m (SZ w m) (sub_center c (SZ w m) o) (kid t (oindex o))) else d) octants [] = merged ext w m c t).
  { unfold merged. apply fold_ext. intros d o. unfold G. rewrite <- sub_center_cc. reflexivity. }
  rewrite X. reflexivity.
Qed.
Lemma Zeqb_spec a b : (a =? b) = true <-> a = b. Proof. apply Z.eqb_eq. Qed.
Lemma merged_has ext w m c t k p : dict_has (merged ext w m c t) k p <-> exists o, In o octants /\ truthy (kid t (oindex o)) = true /\ dict_has (G ext w m (cc w m c o) (kid t (oindex o))) k p.
Proof. unfold merged. rewrite (fold_octants Z.eqb Zeqb_spec). rewrite has_nil. tauto. Qed.
Lemma merged_wf ext w m c t : wf (merged ext w m c t). Proof. apply fold_octants_wf; [exact Zeqb_spec|apply wf_nil]. Qed.
Lemma G_wf ext w n c t : wf (G ext w n c t).
Proof.
  destruct n as [|m]; [split; cbn; [repeat constructor; intros []|repeat constructor; intros []]|]. rewrite G_S. destruct (_ && _); [|apply merged_wf]. apply set_wf; [exact Zeqb_spec|apply del_wf, merged_wf|]. repeat constructor. intros [].
Qed.
Lemma sibs_in ext w m c t p : In p (sibs ext w m c t) <-> dict_has (merged ext w m c t) (SZ w m) p.
Proof. apply get_has; [exact Zeqb_spec|apply merged_wf]. Qed.
Lemma sibs_nodup ext w m c t : NoDup (sibs ext w m c t). Proof. apply get_nodup, merged_wf. Qed.
Lemma cc_inj w m c o o' : 0 < w -> In o octants -> In o' octants -> cc w m c o = cc w m c o' -> o = o'.
Proof.
  intros Hw Ho Ho' H. rewrite <- (in_cube_octant w m c o (cc w m c o)); [|assumption|assumption|]; [rewrite H; apply (in_cube_octant w m); [assumption|assumption|]|];
  match goal with |- in_cube _ ?q ?q => destruct q as [[x y] z]; unfold in_cube; rewrite !Z.sub_diag, Z.abs_0; pose proof (SZ_pos w m Hw); lia end.
Qed.
Lemma octants_nodup : NoDup octants.
Proof. unfold octants. repeat constructor; cbn; intros X; repeat (destruct X as [X|X]; [congruence|]); destruct X. Qed.
Lemma ccs_nodup w m c : 0 < w -> NoDup (map (cc w m c) octants).
Proof.
  intros Hw. assert (K : forall l, incl l octants -> NoDup l -> NoDup (map (cc w m c) l)); [|apply K; [apply incl_refl|apply octants_nodup]].
  induction l as [|o l IH]; intros I N; [constructor|]. inversion N; subst. cbn [map]. constructor; [|apply IH; [intros x Hx; apply I; right; assumption|assumption]]. intros X. apply in_map_iff in X as (o' & X & Ho'). apply cc_inj in X; [subst; contradiction|assumption|apply I; right; assumption|apply I; left; reflexivity].
Qed.
Section inv.
Variables (ext : nat -> list pt3 -> bool) (w : Z).
Hypothesis Hw : 0 < w.
Definition aligned n c (d : sdict Z) : Prop := forall s q, dict_has d s q -> exists i, (i <= n)%nat /\ s = SZ w i /\ cube w n i c q.
Definition covers n c t (d : sdict Z) : Prop := forall p, ongrid w n c p -> (In p (LC w n c t) <-> exists s q, dict_has d s q /\ in_cube s q p).
Definition disjoint n c (d : sdict Z) : Prop := forall p s q s' q', ongrid w n c p -> dict_has d s q -> dict_has d s' q' -> in_cube s q p -> in_cube s' q' p -> s = s' /\ q = q'.
Lemma full_only n c (d : sdict Z) : aligned n c d -> disjoint n c d -> dict_has d (SZ w n) c -> forall s q, dict_has d s q -> s = SZ w n /\ q = c.
Proof.
  intros A D H s q Hs. destruct (A s q Hs) as (i & Hi & -> & Hq). destruct (cube_voxel w n i c q Hw Hi Hq) as (p & Hp & Hin). destruct (D p (SZ w i) q (SZ w n) c Hp Hs H Hin (ongrid_in w n c p Hw Hp)) as [-> ->]. split; reflexivity.
Qed.
Lemma aligned_self n c d q : aligned n c d -> dict_has d (SZ w n) q -> q = c.
Proof. intros A H. destruct (A _ _ H) as (i & Hi & Hs & Hq). apply SZ_inj in Hs; [|assumption]. subst i. apply cube_self in Hq. assumption. Qed.
Definition Inv n c t := let d := G ext w n c t in aligned n c d /\ covers n c t d /\ disjoint n c d.
Lemma inv n : forall c t, Inv n c t.
Proof.
  induction n as [|m IH]; intros c t.
  - unfold Inv, G. cbn [gen]. assert (X : forall s q, dict_has [(SZ w 0, [c])] s q <-> s = SZ w 0 /\ q = c) by (intros; rewrite has_cons, has_nil; cbn; intuition congruence). split; [|split].
    + intros s q H. apply X in H as [-> ->]. exists 0%nat. split; [lia|]. split; [reflexivity|]. apply cube_self. reflexivity.
    + intros p Hp. rewrite <- cube_0 in Hp. apply cube_self in Hp. subst p. unfold LC. cbn. split; [|tauto]. intros _. exists (SZ w 0), c. split; [apply X; tauto|]. apply ongrid_in; [assumption|]. rewrite <- cube_0. apply cube_self. reflexivity.
    + intros p s q s' q' _ H H' _ _. apply X in H as [-> ->]. apply X in H' as [-> ->]. split; reflexivity.
  - set (d := merged ext w m c t).
    (* an entry of the merged dictionary belongs to the child of its octant *)
    assert (A : forall s q, dict_has d s q -> exists o i, In o octants /\ truthy (kid t (oindex o)) = true /\ dict_has (G ext w m (cc w m c o) (kid t (oindex o))) s q /\ (i <= m)%nat /\ s = SZ w i /\ cube w m i (cc w m c o) q).
    { intros s q H. apply merged_has in H as (o & Ho & T & H). destruct (IH (cc w m c o) (kid t (oindex o))) as (IA & _ & _). destruct (IA s q H) as (i & Hi & Hs & Hq). exists o, i. auto 7. }
    assert (B : forall s q p, dict_has d s q -> in_cube s q p -> truthy (kid t (oindex (octant_of c p))) = true /\ dict_has (G ext w m (cc w m c (octant_of c p)) (kid t (oindex (octant_of c p)))) s q).
    { intros s q p H Hin. destruct (A s q H) as (o & i & Ho & T & Hd & Hi & -> & Hq). apply (cube_in w m i (cc w m c o) q p Hw Hi Hq) in Hin. apply in_cube_octant in Hin; [|assumption|assumption]. rewrite Hin. split; assumption. }
    assert (A' : aligned (S m) c d). { intros s q H. destruct (A s q H) as (o & i & Ho & T & Hd & Hi & -> & Hq). exists i. split; [lia|]. split; [reflexivity|]. apply cube_parent with o; assumption. }
    assert (C' : covers (S m) c t d).
    { intros p Hp. rewrite LC_child by assumption. destruct (IH (cc w m c (octant_of c p)) (kid t (oindex (octant_of c p)))) as (_ & IC & _). pose proof (ongrid_child w m c p Hw Hp) as Hp'. split.
      - intros [T H]. apply IC in H as (s & q & H & Hin); [|assumption]. exists s, q. split; [|assumption]. apply merged_has. exists (octant_of c p). split; [apply octant_of_in|]. split; assumption.
      - intros (s & q & H & Hin). destruct (B s q p H Hin) as [T Hd]. split; [assumption|]. apply IC; [assumption|]. exists s, q. split; assumption. }
    assert (D' : disjoint (S m) c d).
    { intros p s q s' q' Hp H H' Hin Hin'. destruct (B s q p H Hin) as [_ Hd]. destruct (B s' q' p H' Hin') as [_ Hd']. destruct (IH (cc w m c (octant_of c p)) (kid t (oindex (octant_of c p)))) as (_ & _ & ID). apply (ID p); try assumption. apply ongrid_child; assumption. }
    unfold Inv. cbv zeta. rewrite G_S. fold d. destruct ((length (sibs ext w m c t) =? 8)%nat && ext m (sibs ext w m c t)) eqn:X; [|split; [assumption|split; assumption]].
    apply andb_true_iff in X as [X _]. apply Nat.eqb_eq in X.
    assert (S1 : forall q, In q (sibs ext w m c t) -> In q (map (cc w m c) octants)).
    { intros q Hq. apply sibs_in in Hq. destruct (A _ _ Hq) as (o & i & Ho & T & Hd & Hi & Hs & Hc). apply SZ_inj in Hs; [|assumption]. subst i. apply cube_self in Hc. subst q. apply in_map. assumption. }
    assert (S2 : incl (map (cc w m c) octants) (sibs ext w m c t)) by (apply NoDup_length_incl; [apply sibs_nodup|rewrite X; cbn; lia|exact S1]).
    assert (S3 : forall o, In o octants -> truthy (kid t (oindex o)) = true /\ dict_has (G ext w m (cc w m c o) (kid t (oindex o))) (SZ w m) (cc w m c o)).
    { intros o Ho. assert (Hq : In (cc w m c o) (sibs ext w m c t)) by (apply S2, in_map; assumption). apply sibs_in in Hq. destruct (A _ _ Hq) as (o' & i & Ho' & T & Hd & Hi & Hs & Hc). apply SZ_inj in Hs; [|assumption]. subst i. apply cube_self in Hc. apply cc_inj in Hc; [|assumption|assumption|assumption]. subst o'. split; assumption. }
    assert (S4 : forall s q, dict_has d s q -> s = SZ w m).
    { intros s q H. destruct (A s q H) as (o & i & Ho & T & Hd & Hi & Hs & Hc). destruct (IH (cc w m c o) (kid t (oindex o))) as (IA & _ & ID). destruct (S3 o Ho) as [_ Hf]. apply (full_only m (cc w m c o) _ IA ID Hf s q Hd). }
    assert (H : forall s q, dict_has (dict_set Z.eqb (dict_del Z.eqb d (SZ w m)) (SZ w (S m)) [c]) s q <-> s = SZ w (S m) /\ q = c).
    { intros s q. rewrite (set_has Z.eqb Zeqb_spec), (del_has Z.eqb Zeqb_spec). cbn. split; [intros [[[H N] _]|[-> [<-|[]]]]; [apply S4 in H; contradiction|split; reflexivity]|intros [-> ->]; right; split; [reflexivity|left; reflexivity]]. }
    split; [|split].
    + intros s q Hs. apply H in Hs as [-> ->]. exists (S m). split; [lia|]. split; [reflexivity|]. apply cube_self. reflexivity.
    + intros p Hp. split; [intros _; exists (SZ w (S m)), c; split; [apply H; split; reflexivity|apply ongrid_in; assumption]|]. intros _. apply C'; [assumption|]. exists (SZ w m), (cc w m c (octant_of c p)). split.
      * apply merged_has. exists (octant_of c p). split; [apply octant_of_in|]. apply S3. apply octant_of_in.
      * apply ongrid_in; [assumption|]. apply ongrid_child; assumption.
    + intros p s q s' q' _ Hs Hs' _ _. apply H in Hs as [-> ->]. apply H in Hs' as [-> ->]. split; reflexivity.
Qed.
Lemma sibs_sub m c t : incl (sibs ext w m c t) (map (cc w m c) octants).
Proof.
  intros q Hq. apply sibs_in in Hq. apply merged_has in Hq as (o & Ho & T & H). destruct (inv m (cc w m c o) (kid t (oindex o))) as (IA & _ & _). apply (aligned_self m (cc w m c o) _ q IA) in H. subst q. apply in_map. assumption.
Qed.
Lemma sibs_eight m c t : incl (map (cc w m c) octants) (sibs ext w m c t) -> length (sibs ext w m c t) = 8%nat.
Proof.
  intros H. apply Nat.le_antisymm.
  - change 8%nat with (length (map (cc w m c) octants)). apply NoDup_incl_length; [apply sibs_nodup|apply sibs_sub].
  - change 8%nat with (length (map (cc w m c) octants)) at 1. apply NoDup_incl_length; [apply ccs_nodup; assumption|assumption].
Qed.
End inv.
(** Everything is merged when [ext] is always true. *)
Lemma maximal w n : 0 < w -> forall c t i q, (i <= n)%nat -> cube w n i c q -> (forall p, ongrid w n c p -> in_cube (SZ w i) q p -> In p (LC w n c t)) ->
  exists j q', (i <= j <= n)%nat /\ dict_has (G (fun _ _ => true) w n c t) (SZ w j) q' /\ forall p, in_cube (SZ w i) q p -> in_cube (SZ w j) q' p.
Proof.
  intros Hw. induction n as [|m IH]; intros c t i q Hi Hq F.
  - exists 0%nat, c. assert (i = 0%nat) by lia. subst i. apply cube_self in Hq. subst q. split; [lia|]. split; [|tauto]. exists [c]. split; [left; reflexivity|left; reflexivity].
  - set (d := merged (fun _ _ => true) w m c t).
    destruct (Nat.eq_dec i (S m)) as [-> | Ni].
    + apply cube_self in Hq. subst q. exists (S m), c. split; [lia|]. split; [|tauto]. rewrite G_S.
      assert (I8 : incl (map (cc w m c) octants) (sibs (fun _ _ => true) w m c t)).
      { intros x Hx. apply in_map_iff in Hx as (o & <- & Ho).
        assert (Fo : forall p, ongrid w m (cc w m c o) p -> octant_of c p = o /\ In p (LC w (S m) c t)).
        { intros p Hp. pose proof (ongrid_in w m _ p Hw Hp) as Hin. apply in_cube_octant in Hin; [|assumption|assumption]. split; [assumption|]. assert (Hp' : ongrid w (S m) c p) by (apply ongrid_parent with o; assumption). apply F; [assumption|]. apply ongrid_in; assumption. }
        destruct (cube_voxel w m m (cc w m c o) (cc w m c o) Hw) as (p0 & Hp0 & _); [lia|apply cube_self; reflexivity|].
        assert (T : truthy (kid t (oindex o)) = true). { destruct (Fo p0 Hp0) as [O L]. apply LC_child in L as [T _]; [|assumption]. rewrite O in T. assumption. }
        destruct (IH (cc w m c o) (kid t (oindex o)) m (cc w m c o)) as (j & q' & Hj & Hd & _); [lia|apply cube_self; reflexivity| |].
        - intros p Hp _. destruct (Fo p Hp) as [O L]. apply LC_child in L as [_ L]; [|assumption]. rewrite O in L. assumption.
        - assert (j = m) by lia. subst j. destruct (inv (fun _ _ => true) w Hw m (cc w m c o) (kid t (oindex o))) as (IA & _ & _). pose proof (aligned_self w Hw m (cc w m c o) _ q' IA Hd) as X. subst q'. apply sibs_in. apply merged_has. exists o. split; [assumption|]. split; assumption. }
      rewrite (sibs_eight (fun _ _ => true) w Hw m c t I8). cbn [Nat.eqb andb]. apply (set_has Z.eqb Zeqb_spec). right. split; [reflexivity|left; reflexivity].
    + assert (Hi' : (i <= m)%nat) by lia. set (o := octant_of c q). pose proof (cube_child w m i c q Hw Hi' Hq) as Hq'. fold o in Hq'.
      assert (Fo : forall p, in_cube (SZ w i) q p -> octant_of c p = o). { intros p Hp. apply (cube_in w m i (cc w m c o) q p Hw Hi' Hq') in Hp. apply in_cube_octant in Hp; [assumption|assumption|apply octant_of_in]. }
      assert (Fl : forall p, ongrid w m (cc w m c o) p -> in_cube (SZ w i) q p -> truthy (kid t (oindex o)) = true /\ In p (LC w m (cc w m c o) (kid t (oindex o)))).
      { intros p Hp Hin. assert (L : In p (LC w (S m) c t)) by (apply F; [apply ongrid_parent with o; [assumption|apply octant_of_in|assumption]|assumption]). apply LC_child in L; [|assumption]. rewrite (Fo p Hin) in L. exact L. }
      destruct (IH (cc w m c o) (kid t (oindex o)) i q Hi' Hq') as (j & q' & Hj & Hd & Hc); [intros p Hp Hin; apply Fl; assumption|].
      assert (T : truthy (kid t (oindex o)) = true). { destruct (cube_voxel w m i (cc w m c o) q Hw Hi' Hq') as (p & Hp & Hin). apply (Fl p Hp Hin). }
      rewrite G_S. destruct (_ && _).
      * exists (S m), c. split; [lia|]. split; [apply (set_has Z.eqb Zeqb_spec); right; split; [reflexivity|left; reflexivity]|]. intros p Hp. apply (cube_in w (S m) i c q p Hw); [lia|assumption|assumption].
      * exists j, q'. split; [lia|]. split; [|assumption]. apply merged_has. exists o. split; [apply octant_of_in|]. split; assumption.
Qed.
Lemma nonhom_gen n : forall size c t, non_homogeneous n size c t = gen (fun _ _ => true) n size c t.
Proof.
  induction n as [|m IH]; intros size c t; [reflexivity|]. cbn [non_homogeneous gen]. cbv zeta.
  assert (X : fold_left (fun d o => if truthy (kid t (oindex o)) then dict_merge Z.eqb d (non_homogeneous m (round2 size) (sub_center c (round2 size) o) (kid t (oindex o))) else d) octants [] =
              fold_left (fun d o => if truthy (kid t (oindex o)) then dict_merge Z.eqb d (gen (fun _ _ => true) m (round2 size) (sub_center c (round2 size) o) (kid t (oindex o))) else d) octants []).
  { apply fold_ext. intros d o. rewrite IH. reflexivity. }
  rewrite X. rewrite andb_true_r. reflexivity.
Qed.
(** In terms of the specification *)
Lemma octree_cube_spec w n c s q : octree_cube (2 * w) n c s q <-> exists i, (i <= n)%nat /\ s = SZ w i /\ cube w n i c q.
Proof.
  assert (V : forall i x j, SZ w i * 2 ^ Z.of_nat (n - i) / 2 = w * 2 ^ Z.of_nat i * 2 ^ Z.of_nat (n - i) /\ x - w * 2 ^ Z.of_nat i * 2 ^ Z.of_nat (n - i) + SZ w i * j + SZ w i / 2 = x - w * 2 ^ Z.of_nat i * (2 ^ Z.of_nat (n - i) - 1) + 2 * (w * 2 ^ Z.of_nat i) * j).
  { intros i x j. unfold SZ. replace (2 * w * 2 ^ Z.of_nat i * 2 ^ Z.of_nat (n - i)) with (w * 2 ^ Z.of_nat i * 2 ^ Z.of_nat (n - i) * 2) by ring. rewrite Z.div_mul by lia. split; [reflexivity|]. replace (2 * w * 2 ^ Z.of_nat i / 2) with (w * 2 ^ Z.of_nat i); [ring|]. replace (2 * w * 2 ^ Z.of_nat i) with (w * 2 ^ Z.of_nat i * 2) by ring. rewrite Z.div_mul by lia. reflexivity. }
  split.
  - intros (i & [[j1 j2] j3] & Hi & -> & -> & H1 & H2 & H3). exists i. split; [assumption|]. split; [reflexivity|]. fold (SZ w i). destruct c as [[cx cy] cz]. unfold cube, ongrid, voxel_center. cbv zeta. rewrite (proj1 (V i 0 0)).
    split; [exists j1|split; [exists j2|exists j3]]; (split; [assumption|apply (V i)]).
  - intros (i & Hi & -> & Hq). destruct c as [[cx cy] cz], q as [[x y] z]. destruct Hq as ((j1 & H1 & ->) & (j2 & H2 & ->) & (j3 & H3 & ->)). exists i, (j1, j2, j3). split; [assumption|]. split; [reflexivity|]. split; [|split; [|split]; assumption].
    unfold voxel_center. cbv zeta. rewrite (proj1 (V i 0 0)). repeat apply (f_equal2 pair); symmetry; apply (V i).
Qed.
Lemma octree_voxel_spec w n c p : 0 < w -> octree_voxel (2 * w) n c p <-> ongrid w n c p.
Proof.
  intros Hw. unfold octree_voxel. rewrite octree_cube_spec. rewrite <- cube_0. split.
  - intros (i & Hi & Hs & H). assert (i = 0%nat); [|subst; assumption]. apply (SZ_inj w); [assumption|]. rewrite <- Hs. unfold SZ. change (2 ^ Z.of_nat 0) with 1. ring.
  - intros H. exists 0%nat. split; [lia|]. split; [|assumption]. unfold SZ. change (2 ^ Z.of_nat 0) with 1. ring.
Qed.
Lemma gen_export {T} ext (a : octree T) w : o_size a = 2 * w -> 0 < w ->
  let d := G ext w (o_depth a) (o_center a) (o_tree a) in
  (forall s q, dict_has d s q -> octree_cube (o_size a) (o_depth a) (o_center a) s q) /\
  (forall p, In p (octree_centers a) -> exists s q, dict_has d s q /\ in_cube s q p /\ forall s' q', dict_has d s' q' -> in_cube s' q' p -> s' = s /\ q' = q) /\
  (forall s q p, dict_has d s q -> octree_voxel (o_size a) (o_depth a) (o_center a) p -> in_cube s q p -> In p (octree_centers a)).
Proof.
  intros Hs Hw d. destruct (inv ext w Hw (o_depth a) (o_center a) (o_tree a)) as (A & C & D). fold d in A, C, D. unfold octree_centers. rewrite Hs. fold (LC w (o_depth a) (o_center a) (o_tree a)). split; [|split].
  - intros s q H. apply octree_cube_spec. apply A. assumption.
  - intros p Hp. pose proof (LC_ongrid w _ Hw _ _ _ Hp) as Hg. apply (C p Hg) in Hp as (s & q & H & Hin). exists s, q. split; [assumption|]. split; [assumption|]. intros s' q' H' Hin'. apply (D p s' q' s q Hg); assumption.
  - intros s q p H Hv Hin. apply octree_voxel_spec in Hv; [|assumption]. apply (C p Hv). exists s, q. split; assumption.
Qed.
Lemma nonhom_export {T} (a : octree T) : 0 < o_size a -> Z.even (o_size a) = true ->
  let d := octree_non_homogeneous a in
  (forall s q, dict_has d s q -> octree_cube (o_size a) (o_depth a) (o_center a) s q) /\
  (forall p, In p (octree_centers a) -> exists s q, dict_has d s q /\ in_cube s q p /\ forall s' q', dict_has d s' q' -> in_cube s' q' p -> s' = s /\ q' = q) /\
  (forall s q p, dict_has d s q -> octree_voxel (o_size a) (o_depth a) (o_center a) p -> in_cube s q p -> In p (octree_centers a)).
Proof.
  intros H1 H2. destruct (even_half _ H1 H2) as (w & Hs & Hw). pose proof (gen_export (fun _ _ => true) a w Hs Hw) as X. unfold octree_non_homogeneous. rewrite nonhom_gen. unfold G, SZ in X. rewrite <- Hs in X. exact X.
Qed.
Lemma nonhom_maximal {T} (a : octree T) s q : 0 < o_size a -> Z.even (o_size a) = true -> octree_cube (o_size a) (o_depth a) (o_center a) s q ->
  (forall p, octree_voxel (o_size a) (o_depth a) (o_center a) p -> in_cube s q p -> In p (octree_centers a)) ->
  exists s' q', dict_has (octree_non_homogeneous a) s' q' /\ s <= s' /\ forall p, in_cube s q p -> in_cube s' q' p.
Proof.
  intros H1 H2. destruct (even_half _ H1 H2) as (w & Hs & Hw). rewrite Hs. rewrite octree_cube_spec. intros (i & Hi & -> & Hq) F.
  destruct (maximal w (o_depth a) Hw (o_center a) (o_tree a) i q Hi Hq) as (j & q' & Hj & Hd & Hc).
  - intros p Hp Hin. unfold octree_centers in F. rewrite Hs in F. apply F; [apply octree_voxel_spec; assumption|assumption].
  - exists (SZ w j), q'. split; [|split; [destruct (Nat.eq_dec i j) as [-> |N]; [lia|apply Z.lt_le_incl, SZ_lt; [assumption|lia]]|assumption]]. unfold octree_non_homogeneous. rewrite nonhom_gen, Hs. exact Hd.
Qed.
