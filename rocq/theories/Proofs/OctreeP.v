From Verif.Model Require Import Base FloodFill VoxelMatrix Octree.
From Verif.Spec Require Import OctreeSpec.
From Verif.Proofs Require Import FloodFillP.
From Coq Require Import Lia.
Open Scope Z_scope.

(** Arithmetic *)
Lemma round2_even a : round2 (2 * a) = a.
Proof. unfold round2. destruct (Z.sgn_spec (2 * a)) as [[H ->]|[[H ->]|[H ->]]].
  - rewrite Z.quot_div_nonneg by lia. symmetry. apply Z.div_unique with 1; lia.
  - replace a with 0 by lia. reflexivity.
  - change (- (1)) with (-1). replace (2 * a + -1) with (- (2 * (-a) + 1)) by ring. rewrite (Z.quot_opp_l (2 * - a + 1) 2) by lia. rewrite Z.quot_div_nonneg by lia. rewrite <- (Z.div_unique (2 * - a + 1) 2 (- a) 1); lia.
Qed.
Lemma pow_S m : 2 ^ Z.of_nat (S m) = 2 * 2 ^ Z.of_nat m. Proof. rewrite Nat2Z.inj_succ, Z.pow_succ_r by lia. reflexivity. Qed.
Lemma pow_pos m : 1 <= 2 ^ Z.of_nat m. Proof. assert (0 < 2 ^ Z.of_nat m) by (apply Z.pow_pos_nonneg; lia). lia. Qed.
Lemma half_size w m : round2 (2 * w * 2 ^ Z.of_nat (S m)) = 2 * w * 2 ^ Z.of_nat m.
Proof. rewrite pow_S. replace (2 * w * (2 * 2 ^ Z.of_nat m)) with (2 * (2 * w * 2 ^ Z.of_nat m)) by ring. apply round2_even. Qed.
(** center of the child octant, m levels above the leaves *)
Definition cc (w : Z) (m : nat) (c o : pt3) : pt3 :=
  let q := w * 2 ^ Z.of_nat m in
  let '(cx, cy, cz) := c in let '(i, j, k) := o in (cx + (2 * i - 1) * q, cy + (2 * j - 1) * q, cz + (2 * k - 1) * q).
Lemma sub_center_cc w m c o : sub_center c (2 * w * 2 ^ Z.of_nat m) o = cc w m c o.
Proof. destruct c as [[cx cy] cz], o as [[i j] k]. unfold sub_center, cc, sub_coord. repeat apply (f_equal2 pair);
  match goal with |- round2 ?a = ?b => replace a with (2 * b) by ring; apply round2_even end. Qed.
Definition LC w n c t := leaf_centers n (2 * w * 2 ^ Z.of_nat n) c t.
Lemma LC_S w m c t : LC w (S m) c t = flat_map (fun o => if truthy (kid t (oindex o)) then LC w m (cc w m c o) (kid t (oindex o)) else []) octants.
Proof. unfold LC. cbn [leaf_centers]. rewrite half_size. apply flat_map_ext. intros o. rewrite sub_center_cc. reflexivity. Qed.
Lemma octants_dec o : {In o octants} + {~ In o octants}.
Proof. apply in_dec. decide equality; [apply Z.eq_dec|decide equality; apply Z.eq_dec]. Qed.
Lemma octant_of_in c p : In (octant_of c p) octants.
Proof. destruct c as [[a b] d], p as [[x y] z]. cbn. destruct (a <? x), (b <? y), (d <? z); tauto. Qed.
Lemma octants_cases (P : pt3 -> Prop) : P (0,0,0) -> P (0,0,1) -> P (0,1,0) -> P (0,1,1) -> P (1,0,0) -> P (1,0,1) -> P (1,1,0) -> P (1,1,1) -> forall o, In o octants -> P o.
Proof. intros. cbn in *. intuition subst; assumption. Qed.
Ltac octcase o Ho := pattern o; revert o Ho; refine (octants_cases _ _ _ _ _ _ _ _ _); cbv beta.
Lemma oindex_inj o o' : In o octants -> In o' octants -> oindex o = oindex o' -> o = o'.
Proof. intros H H' X. cbn in H, H'. repeat (destruct H as [H|H]; [subst o|]); try destruct H; repeat (destruct H' as [H'|H']; [subst o'|]); try destruct H'; cbn in X; try reflexivity; discriminate. Qed.
Lemma oindex_lt o : In o octants -> (oindex o < 8)%nat. Proof. intros Ho. octcase o Ho; cbn; lia. Qed.
Lemma kid_map f o : In o octants -> kid (Kids (map f octants)) (oindex o) = f o.
Proof. intros Ho. octcase o Ho; reflexivity. Qed.

(** Entries through [cc] *)
Fixpoint E (w : Z) (n : nat) (c : pt3) (t : node) (p : pt3) : list Z :=
  match n with
  | O => if eqb3 p c then indices t else []
  | S m => let o := octant_of c p in E w m (cc w m c o) (kid t (oindex o)) p
  end.
Lemma E_nil w n : forall c p, E w n c (Leafs []) p = [].
Proof. induction n as [|n IH]; intros c p; cbn [E]; [destruct (eqb3 p c); reflexivity|apply IH]. Qed.
Lemma E_falsy w n c t p : truthy t = false -> E w n c t p = [].
Proof.
  destruct t as [[|a l]|[|a l]]; try discriminate; intros _; [apply E_nil|]. destruct n as [|n]; cbn [E]; [destruct (eqb3 p c); reflexivity|].
  replace (kid (Kids []) (oindex (octant_of c p))) with (Leafs []); [apply E_nil|]. cbn. destruct (oindex (octant_of c p)); reflexivity.
Qed.
Lemma entries_E w n : forall c t p, entries n (2 * w) c t p = E w n c t p.
Proof.
  induction n as [|m IH]; intros c t p; [reflexivity|]. cbn [entries E]. destruct p as [[x y] z], c as [[cx cy] cz].
  replace (2 * w * 2 ^ Z.of_nat m / 2) with (w * 2 ^ Z.of_nat m) by (replace (2 * w * 2 ^ Z.of_nat m) with (w * 2 ^ Z.of_nat m * 2) by ring; rewrite Z.div_mul by lia; reflexivity).
  destruct t as [l|l]; [rewrite E_nil; reflexivity|]. rewrite IH. unfold octant_of, cc, oindex, kid.
  destruct (cx <? x), (cy <? y), (cz <? z);
  match goal with |- E _ _ ?a _ _ = E _ _ ?b _ _ => replace b with a; [reflexivity|repeat apply (f_equal2 pair); ring] end.
Qed.
Lemma eqb3_refl p : eqb3 p p = true. Proof. apply eqb3_spec. reflexivity. Qed.
Definition near (r : Z) (c p : pt3) : Prop := let '(cx, cy, cz) := c in let '(x, y, z) := p in Z.abs (x - cx) <= r /\ Z.abs (y - cy) <= r /\ Z.abs (z - cz) <= r.
Lemma near_cc w m c o p : 0 < w -> In o octants -> near (w * (2 ^ Z.of_nat m - 1)) (cc w m c o) p -> near (w * (2 ^ Z.of_nat (S m) - 1)) c p /\ octant_of c p = o.
Proof.
  intros Hw Ho. rewrite pow_S. set (e := 2 ^ Z.of_nat m). pose proof (pow_pos m) as Hp. fold e in Hp. destruct c as [[cx cy] cz], p as [[x y] z].
  assert (0 < w * e) by nia. unfold near, cc, octant_of. fold e. octcase o Ho; try change (2 * 0 - 1) with (-1); try change (2 * 1 - 1) with 1; intros (A & B & C);
  (split; [repeat split; lia|]); repeat apply (f_equal2 pair); match goal with |- (if ?a <? ?b then _ else _) = _ => destruct (Z.ltb_spec a b); lia end.
Qed.
Lemma near_0 c : near 0 c c. Proof. destruct c as [[x y] z]. unfold near. lia. Qed.
Lemma E_near w n : 0 < w -> forall c t p, E w n c t p <> [] -> near (w * (2 ^ Z.of_nat n - 1)) c p.
Proof.
  intros Hw. induction n as [|m IH]; intros c t p H; cbn [E] in H.
  - destruct (eqb3 p c) eqn:X; [|congruence]. apply eqb3_spec in X. subst. replace (w * (2 ^ Z.of_nat 0 - 1)) with 0 by (cbn; ring). apply near_0.
  - apply IH in H. apply near_cc in H; [apply H|assumption|apply octant_of_in].
Qed.
Lemma LC_near w n : 0 < w -> forall c t p, In p (LC w n c t) -> near (w * (2 ^ Z.of_nat n - 1)) c p.
Proof.
  intros Hw. induction n as [|m IH]; intros c t p H.
  - unfold LC in H. cbn in H. destruct H as [<-|[]]. replace (w * (2 ^ Z.of_nat 0 - 1)) with 0 by (cbn; ring). apply near_0.
  - rewrite LC_S in H. apply in_flat_map in H as (o & Ho & H). destruct (truthy (kid t (oindex o))); [|destruct H]. apply IH in H. apply near_cc in H; [apply H|assumption|assumption].
Qed.
(** Trees whose leaves are at the right depth *)
Fixpoint ok (n : nat) (t : node) : Prop := match n with O => exists l, t = Leafs l | S m => forall i, ok m (kid t i) end.
Lemma ok_nil n : ok n (Leafs []). Proof. induction n as [|n IH]; cbn; [eexists; reflexivity|intros; exact IH]. Qed.
Lemma height_ok n : forall t, node_of_height n t -> ok n t.
Proof.
  induction n as [|m IH]; intros t H; [exact H|]. destruct H as (l & -> & Hl & F). intros i. cbn [kid]. destruct (Nat.lt_ge_cases i (length l)) as [Hi|Hi].
  - rewrite Forall_forall in F. destruct (F (nth i l (Leafs [])) (nth_In _ _ Hi)) as [-> | H]; [apply ok_nil|apply IH; assumption].
  - rewrite nth_overflow by assumption. apply ok_nil.
Qed.
Definition D w n c t p : Prop := In p (if truthy t then LC w n c t else []).
Lemma D_S w m c t p : 0 < w -> D w (S m) c t p <-> D w m (cc w m c (octant_of c p)) (kid t (oindex (octant_of c p))) p.
Proof.
  intros Hw. unfold D. assert (X : In p (LC w (S m) c t) <-> In p (if truthy (kid t (oindex (octant_of c p))) then LC w m (cc w m c (octant_of c p)) (kid t (oindex (octant_of c p))) else [])).
  { rewrite LC_S, in_flat_map. split.
    - intros (o & Ho & H). destruct (truthy (kid t (oindex o))) eqn:T; [|destruct H]. pose proof (LC_near w m Hw _ _ _ H) as N. apply near_cc in N as [_ N]; [|assumption|assumption]. rewrite N. rewrite T. assumption.
    - intros H. exists (octant_of c p). split; [apply octant_of_in|assumption]. }
  destruct (truthy t) eqn:T; [exact X|]. rewrite <- X. split; [intros []|]. rewrite X.
  destruct t as [[|a l]|[|a l]]; try discriminate; cbn [kid]; [|replace (nth (oindex (octant_of c p)) [] (Leafs [])) with (Leafs []) by (destruct (oindex (octant_of c p)); reflexivity)]; cbn; auto.
Qed.
Lemma D_E w n : 0 < w -> forall c t p, ok n t -> D w n c t p <-> E w n c t p <> [].
Proof.
  intros Hw. induction n as [|m IH]; intros c t p H.
  - destruct H as [l ->]. unfold D, LC. cbn. destruct (eqb3 p c) eqn:X.
    + apply eqb3_spec in X. subst. destruct l; cbn; split; intros Y; [destruct Y|congruence|discriminate|left; reflexivity].
    + assert (c <> p) by (intros ->; rewrite eqb3_refl in X; discriminate). destruct l; cbn; split; intros Y; try congruence; destruct Y as [Y|[]]; congruence.
  - rewrite D_S by assumption. cbn [E]. apply IH. apply H.
Qed.
Lemma centers_E w n c t p : 0 < w -> (1 <= n)%nat -> ok n t -> In p (LC w n c t) <-> E w n c t p <> [].
Proof.
  intros Hw Hn H. rewrite <- (D_E w n Hw c t p H). destruct n as [|m]; [lia|]. unfold D. destruct (truthy t) eqn:T; [reflexivity|]. split; [|intros []].
  rewrite LC_S, in_flat_map. intros (o & Ho & X). destruct t as [[|a l]|[|a l]]; try discriminate; cbn [kid] in X; [destruct X|]. replace (nth (oindex o) [] (Leafs [])) with (Leafs []) in X by (destruct (oindex o); reflexivity). destruct X.
Qed.
(** Boolean operations *)
Lemma blank_ok m : ok m (blank m).
Proof. destruct m as [|m]; [eexists; reflexivity|]. intros i. unfold blank, empty8, kid. do 8 (destruct i as [|i]; [apply ok_nil|]). destruct i; apply ok_nil. Qed.
Lemma E_blank w m c p : E w m c (blank m) p = [].
Proof.
  destruct m as [|m]; [apply E_nil|]. cbn [E blank]. replace (kid empty8 (oindex (octant_of c p))) with (Leafs []); [apply E_nil|].
  generalize (octant_of_in c p). generalize (octant_of c p). intros o Ho. octcase o Ho; reflexivity.
Qed.
Lemma E_union w k n : forall c a b p, E w n c (rec_union n k a b) p = (E w n c a p ++ map (fun i => i + k) (E w n c b p))%list.
Proof.
  induction n as [|m IH]; intros c a b p; cbn [E rec_union].
  - destruct (eqb3 p c); [reflexivity|reflexivity].
  - rewrite kid_map by apply octant_of_in. set (o := octant_of c p). destruct (truthy (kid a (oindex o))) eqn:Ta, (truthy (kid b (oindex o))) eqn:Tb; cbn [andb].
    + apply IH.
    + rewrite IH, E_blank, (E_falsy w m _ _ _ Tb). reflexivity.
    + rewrite IH, E_blank, (E_falsy w m _ _ _ Ta). reflexivity.
    + rewrite E_nil, (E_falsy w m _ _ _ Ta), (E_falsy w m _ _ _ Tb). reflexivity.
Qed.
Definition isnil {A} (l : list A) : bool := match l with [] => true | _ => false end.
Lemma ok0_truthy t : ok 0 t -> truthy t = negb (isnil (indices t)). Proof. intros [[|x l] ->]; reflexivity. Qed.
Lemma E_difference w k n : forall c a b p, ok n a -> ok n b -> E w n c (rec_difference n k a b) p = if isnil (E w n c b p) then E w n c a p else [].
Proof.
  induction n as [|m IH]; intros c a b p Ha Hb; cbn [E rec_difference].
  - rewrite (ok0_truthy b Hb), negb_involutive. destruct (isnil (indices b)) eqn:N; destruct (eqb3 p c); rewrite ?N; reflexivity.
  - rewrite kid_map by apply octant_of_in. set (o := octant_of c p). destruct (truthy (kid a (oindex o))) eqn:Ta, (truthy (kid b (oindex o))) eqn:Tb; cbn [andb].
    + apply IH; [apply Ha|apply Hb].
    + rewrite IH by (try apply Ha; apply blank_ok). rewrite E_blank, (E_falsy w m _ _ _ Tb). reflexivity.
    + rewrite E_nil, (E_falsy w m _ _ _ Ta). destruct (isnil _); reflexivity.
    + rewrite E_nil, (E_falsy w m _ _ _ Ta). destruct (isnil _); reflexivity.
Qed.
Lemma E_intersection w k n : forall c a b p, ok n a -> ok n b -> (n = O -> truthy a = true /\ truthy b = true) ->
  E w n c (rec_intersection n k a b) p = if isnil (E w n c a p) || isnil (E w n c b p) then [] else (E w n c a p ++ map (fun i => i + k) (E w n c b p))%list.
Proof.
  induction n as [|m IH]; intros c a b p Ha Hb H0; cbn [E rec_intersection].
  - destruct (H0 eq_refl) as [Ta Tb]. rewrite (ok0_truthy a Ha) in Ta. rewrite (ok0_truthy b Hb) in Tb. apply negb_true_iff in Ta, Tb. destruct (eqb3 p c); rewrite ?Ta, ?Tb; reflexivity.
  - rewrite kid_map by apply octant_of_in. set (o := octant_of c p). destruct (truthy (kid a (oindex o))) eqn:Ta, (truthy (kid b (oindex o))) eqn:Tb; cbn [andb].
    + apply IH; [apply Ha|apply Hb|auto].
    + rewrite E_nil, (E_falsy w m _ _ _ Tb). rewrite orb_true_r. reflexivity.
    + rewrite E_nil, (E_falsy w m _ _ _ Ta). reflexivity.
    + rewrite E_nil, (E_falsy w m _ _ _ Ta). reflexivity.
Qed.
Lemma E_symmetric w k n : forall c a b p, ok n a -> ok n b ->
  E w n c (rec_symmetric n k a b) p = if isnil (E w n c b p) then E w n c a p else if isnil (E w n c a p) then map (fun i => i + k) (E w n c b p) else [].
Proof.
  induction n as [|m IH]; intros c a b p Ha Hb; cbn [E rec_symmetric].
  - rewrite (ok0_truthy b Hb), (ok0_truthy a Ha), !negb_involutive. destruct (isnil (indices b)) eqn:N; [|destruct (isnil (indices a)) eqn:M]; destruct (eqb3 p c); rewrite ?N, ?M; reflexivity.
  - rewrite kid_map by apply octant_of_in. set (o := octant_of c p). destruct (truthy (kid a (oindex o))) eqn:Ta, (truthy (kid b (oindex o))) eqn:Tb; cbn [andb].
    + apply IH; [apply Ha|apply Hb].
    + rewrite IH by (try apply Ha; apply blank_ok). rewrite E_blank, (E_falsy w m _ _ _ Tb). reflexivity.
    + rewrite IH by (try apply Hb; apply blank_ok). rewrite E_blank, (E_falsy w m _ _ _ Ta). reflexivity.
    + rewrite E_nil, (E_falsy w m _ _ _ Ta), (E_falsy w m _ _ _ Tb). reflexivity.
Qed.
(** The results are well formed *)
Lemma blank_height m : node_of_height m (blank m).
Proof. destruct m as [|m]; [eexists; reflexivity|]. exists (repeat (Leafs []) 8). split; [reflexivity|]. split; [reflexivity|]. repeat (constructor; [left; reflexivity|]). constructor. Qed.
Lemma kid_height m t o : node_of_height (S m) t -> truthy (kid t (oindex o)) = true -> node_of_height m (kid t (oindex o)).
Proof.
  intros (l & -> & Hl & F) T. cbn [kid] in *. rewrite Forall_forall in F. destruct (Nat.lt_ge_cases (oindex o) (length l)) as [Hi|Hi].
  - destruct (F _ (nth_In l (Leafs []) Hi)) as [X|X]; [rewrite X in T; discriminate|assumption].
  - rewrite nth_overflow in T by assumption. discriminate.
Qed.
Lemma kids_height m f : (forall o, f o = Leafs [] \/ node_of_height m (f o)) -> node_of_height (S m) (Kids (map f octants)).
Proof. intros H. exists (map f octants). split; [reflexivity|]. split; [reflexivity|]. apply Forall_forall. intros x Hx. apply in_map_iff in Hx as (o & <- & _). apply H. Qed.
Ltac rec_height IH Ha Hb := apply kids_height; intros o; cbv zeta;
  destruct (truthy (kid _ (oindex o))) eqn:Ta; cbn [andb]; try (left; reflexivity).
Lemma union_height k n : forall a b, node_of_height n a -> node_of_height n b -> node_of_height n (rec_union n k a b).
Proof.
  induction n as [|m IH]; intros a b Ha Hb; [eexists; reflexivity|]. cbn [rec_union]. apply kids_height. intros o. cbv zeta.
  destruct (truthy (kid a (oindex o))) eqn:Ta, (truthy (kid b (oindex o))) eqn:Tb; cbn [andb]; try (left; reflexivity); right; apply IH; try apply blank_height; apply kid_height; assumption.
Qed.
Lemma difference_height k n : forall a b, node_of_height n a -> node_of_height n b -> node_of_height n (rec_difference n k a b).
Proof.
  induction n as [|m IH]; intros a b Ha Hb; [cbn; destruct (truthy b); [eexists; reflexivity|exact Ha]|]. cbn [rec_difference]. apply kids_height. intros o. cbv zeta.
  destruct (truthy (kid a (oindex o))) eqn:Ta, (truthy (kid b (oindex o))) eqn:Tb; cbn [andb]; try (left; reflexivity); right; apply IH; try apply blank_height; apply kid_height; assumption.
Qed.
Lemma intersection_height k n : forall a b, node_of_height n a -> node_of_height n b -> node_of_height n (rec_intersection n k a b).
Proof.
  induction n as [|m IH]; intros a b Ha Hb; [eexists; reflexivity|]. cbn [rec_intersection]. apply kids_height. intros o. cbv zeta.
  destruct (truthy (kid a (oindex o))) eqn:Ta, (truthy (kid b (oindex o))) eqn:Tb; cbn [andb]; try (left; reflexivity); right; apply IH; try apply blank_height; apply kid_height; assumption.
Qed.
Lemma symmetric_height k n : forall a b, node_of_height n a -> node_of_height n b -> node_of_height n (rec_symmetric n k a b).
Proof.
  induction n as [|m IH]; intros a b Ha Hb; [cbn; destruct (truthy b); [destruct (truthy a); eexists; reflexivity|exact Ha]|]. cbn [rec_symmetric]. apply kids_height. intros o. cbv zeta.
  destruct (truthy (kid a (oindex o))) eqn:Ta, (truthy (kid b (oindex o))) eqn:Tb; cbn [andb]; try (left; reflexivity); right; apply IH; try apply blank_height; apply kid_height; assumption.
Qed.
