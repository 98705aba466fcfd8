(** Polygon areas, centres of mass, moments. *)
From Coq Require Import Reals Lra Lia List Bool Psatz Permutation Arith.
From Verif.Model Require Import RBase Vec Polygon.
From Verif.Spec Require Import PolygonSpec.
From Verif.Proofs Require Import VecP PolygonP.
Import ListNotations.
Open Scope R_scope.

Definition lsum (f : vec2 -> vec2 -> R) (l : list (vec2 * vec2)) : R := fold_right (fun s acc => f (fst s) (snd s) + acc) 0 l.
Lemma lsum_perm f l l' : Permutation l l' -> lsum f l = lsum f l'.
Proof. unfold lsum. induction 1; cbn [fold_right]; lra. Qed.
Lemma lsum_map f g l : lsum f (map g l) = lsum (fun a b => f (fst (g (a, b))) (snd (g (a, b)))) l.
Proof. unfold lsum in *. induction l as [|[a b] l IH]; cbn; [auto|rewrite IH; auto]. Qed.
Lemma lsum_ext f g l : (forall a b, f a b = g a b) -> lsum f l = lsum g l.
Proof. intros H. unfold lsum in *. induction l as [|[a b] l IH]; cbn; [auto|rewrite IH, H; auto]. Qed.
Lemma lsum_lin f g h k m l : (forall a b, f a b = k * g a b + m * h a b) -> lsum f l = k * lsum g l + m * lsum h l.
Proof. intros H. unfold lsum in *. induction l as [|[a b] l IH]; cbn; [ring|rewrite IH, H; ring]. Qed.
Lemma sum_sides_lsum f pts : sum_sides f pts = lsum f (sides pts). Proof. reflexivity. Qed.
(** telescoping *)
Lemma lsum_tele (g : vec2 -> R) pts : lsum (fun a b => g b - g a) (sides pts) = 0.
Proof.
  destruct pts as [|a l]; [reflexivity|]. cbn [sides].
  cut (forall f a, lsum (fun a b => g b - g a) (sides_from f a l) = g f - g a). { intros H; rewrite H; ring. } clear a.
  unfold lsum. induction l as [|b l IH]; intros f a; cbn; [ring|]. rewrite IH. ring.
Qed.
Lemma sum_sides_rotate f a l : sum_sides f (l ++ [a]) = sum_sides f (a :: l).
Proof. symmetry. apply lsum_perm, sides_rotate. Qed.
Lemma sum_sides_rev f pts : sum_sides f (rev pts) = sum_sides (fun a b => f b a) pts.
Proof. unfold sum_sides. fold (lsum f (sides (rev pts))). rewrite (lsum_perm _ _ _ (sides_reverse pts)), lsum_map. reflexivity. Qed.
Lemma sum_sides_map f g pts : sum_sides f (map g pts) = sum_sides (fun a b => f (g a) (g b)) pts.
Proof. unfold sum_sides. fold (lsum f (sides (map g pts))). rewrite sides_map, lsum_map. reflexivity. Qed.
Lemma sum_sides_lin f g h k m pts : (forall a b, f a b = k * g a b + m * h a b) -> sum_sides f pts = k * sum_sides g pts + m * sum_sides h pts.
Proof. apply lsum_lin. Qed.
Lemma sum_sides_ext f g pts : (forall a b, f a b = g a b) -> sum_sides f pts = sum_sides g pts.
Proof. apply lsum_ext. Qed.
Lemma sum_sides_tele g pts : sum_sides (fun a b => g b - g a) pts = 0.
Proof. apply lsum_tele. Qed.
(** up to a telescoping term *)
Lemma sum_sides_tel f h g pts : (forall a b, f a b = h a b + (g b - g a)) -> sum_sides f pts = sum_sides h pts.
Proof.
  intros H. rewrite (sum_sides_lin f h (fun a b => g b - g a) 1 1).
  - rewrite sum_sides_tele. ring.
  - intros. rewrite H. ring.
Qed.

(** ** Area *)
Lemma prods_combine {A} (g h : A -> R) l l' : prods (map g l) (map h l') = map (fun s => g (fst s) * h (snd s)) (combine l l').
Proof.
  unfold prods. revert l'. induction l as [|a l IH]; intros [|b l']; cbn; auto. rewrite IH. reflexivity.
Qed.
Lemma removelast_map {A B} (g : A -> B) l : removelast (map g l) = map g (removelast l).
Proof. induction l as [|a [|b l] IH]; auto. cbn [map] in *. change (removelast (g a :: g b :: map g l)) with (g a :: removelast (g b :: map g l)). rewrite IH. reflexivity. Qed.
Lemma last_map {A B} (g : A -> B) l d e : l <> [] -> last (map g l) e = g (last l d).
Proof. induction l as [|a [|b l] IH]; intros N; [congruence|reflexivity|]. cbn [map last] in *. apply IH. discriminate. Qed.
Lemma roll_right_map {A B} (g : A -> B) l d e : roll_right e (map g l) = map g (roll_right d l).
Proof.
  destruct l as [|a l]; [reflexivity|]. unfold roll_right. 
  replace (match map g (a :: l) with [] => [] | _ :: _ => last (map g (a :: l)) e :: removelast (map g (a :: l)) end) with (last (map g (a :: l)) e :: removelast (map g (a :: l))) by reflexivity.
  rewrite (last_map g _ d) by discriminate. rewrite removelast_map. reflexivity.
Qed.
(** combine pts (roll_right pts) lists the sides reversed, up to rotation *)
Lemma combine_roll {A} (d a : A) l : combine (a :: l) (d :: removelast (a :: l)) = (a, d) :: map swap (combine (a :: l) l).
Proof.
  cbn [combine]. f_equal. revert a. induction l as [|b l IH]; intros a; [reflexivity|].
  change (removelast (a :: b :: l)) with (a :: removelast (b :: l)). cbn [combine map]. f_equal. apply IH.
Qed.
Lemma roll_right_sides pts d : Permutation (combine pts (roll_right d pts)) (map swap (sides pts)).
Proof.
  destruct pts as [|a l]; [apply Permutation_refl|]. unfold roll_right. rewrite combine_roll.
  rewrite <- edges_sides. unfold edges_of.
  cut (forall f a, Permutation (map swap (combine (a :: l) (l ++ [f]))) ((f, last (a :: l) d) :: map swap (combine (a :: l) l))).
  { intros H. apply Permutation_sym, H. } clear a.
  induction l as [|b l IH]; intros f a; [apply Permutation_refl|]. cbn [app]. 
  change (combine (a :: b :: l) (b :: l ++ [f])) with ((a, b) :: combine (b :: l) (l ++ [f])).
  change (combine (a :: b :: l) (b :: l)) with ((a, b) :: combine (b :: l) l).
  cbn [map]. change (last (a :: b :: l) d) with (last (b :: l) d). rewrite (IH f b). apply perm_swap.
Qed.
Lemma sumR_perm l l' : Permutation l l' -> sumR l = sumR l'.
Proof. unfold sumR. induction 1; cbn [fold_right]; lra. Qed.
Lemma sumR_lsum f l : sumR (map (fun s => f (fst s) (snd s)) l) = lsum f l.
Proof. unfold lsum, sumR in *. induction l as [|[a b] l IH]; cbn; [auto|rewrite <- IH; auto]. Qed.
Definition shoe (a b : vec2) := x2 a * y2 b - y2 a * x2 b.
Lemma area_raw pts : sumR (prods (map x2 pts) (roll_right 0 (map y2 pts))) - sumR (prods (map y2 pts) (roll_right 0 (map x2 pts)))
  = - sum_sides shoe pts.
Proof.
  rewrite !(roll_right_map _ _ (V2 0 0) 0), !prods_combine.
  rewrite !(sumR_lsum (fun a b => x2 a * y2 b)), !(sumR_lsum (fun a b => y2 a * x2 b)).
  rewrite !(lsum_perm _ _ _ (roll_right_sides pts (V2 0 0))), !lsum_map. cbn [swap fst snd].
  unfold sum_sides. fold (lsum shoe (sides pts)).
  rewrite (lsum_lin shoe (fun a b => x2 b * y2 a) (fun a b => y2 b * x2 a) (-1) 1) by (intros; unfold shoe; ring). ring.
Qed.
Lemma fan o pts : sum_sides (tri2 o) pts = sum_sides shoe pts.
Proof. apply sum_sides_tel with (g := fun a => x2 a * y2 o - y2 a * x2 o). intros. unfold tri2, shoe. ring. Qed.
Lemma small_area pts : (length pts < 3)%nat -> sum_sides shoe pts = 0.
Proof. destruct pts as [|a [|b [|c l]]]; cbn; unfold shoe; intros; try lia; cbn; ring. Qed.
Lemma area_fan pts o : polygon_area pts = Rabs (sum_sides (tri2 o) pts) / 2.
Proof.
  unfold polygon_area. rewrite fan. destruct (Nat.ltb_spec (length pts) 3) as [L|L].
  - rewrite small_area, Rabs_R0 by auto. field.
  - rewrite area_raw, Rabs_Ropp. field.
Qed.
Lemma area_rotate a l : polygon_area (l ++ [a]) = polygon_area (a :: l).
Proof. rewrite !(area_fan _ O2D), sum_sides_rotate. auto. Qed.
Lemma area_reverse pts : polygon_area (rev pts) = polygon_area pts.
Proof.
  rewrite !(area_fan _ O2D), sum_sides_rev. f_equal.
  rewrite (sum_sides_lin (fun a b => tri2 O2D b a) (tri2 O2D) (tri2 O2D) (-1) 0) by (intros; unfold tri2; ring).
  rewrite Rmult_0_l, Rplus_0_r. replace (-1 * sum_sides (tri2 O2D) pts) with (- sum_sides (tri2 O2D) pts) by ring. apply Rabs_Ropp.
Qed.
Lemma area_translation pts o : polygon_area (polygon_translation pts o) = polygon_area pts.
Proof.
  rewrite (area_fan _ o), (area_fan pts O2D). unfold polygon_translation. rewrite sum_sides_map.
  do 2 f_equal. apply sum_sides_ext. intros. unfold tri2, translation2, O2D. cbn. ring.
Qed.
Lemma area_rotation pts c a : polygon_area (polygon_rotation pts c a) = polygon_area pts.
Proof.
  rewrite !(area_fan _ c). unfold polygon_rotation. rewrite sum_sides_map.
  do 2 f_equal. apply sum_sides_ext. intros u v. unfold tri2, rotation2, sub2. cbn [x2 y2].
  pose proof (sin2_cos2 a) as E. unfold Rsqr in E.
  set (s := sin a) in *; set (k := cos a) in *. clearbody s k.
  transitivity ((s * s + k * k) * ((x2 u - x2 c) * (y2 v - y2 c) - (y2 u - y2 c) * (x2 v - x2 c))); [ring|rewrite E; ring].
Qed.
Lemma area_nonneg pts : 0 <= polygon_area pts.
Proof. rewrite (area_fan _ O2D). pose proof (Rabs_pos (sum_sides (tri2 O2D) pts)). lra. Qed.
Lemma area_scale pts k : polygon_area (map (fun p => mul2 p k) pts) = k ^ 2 * polygon_area pts.
Proof.
  rewrite !(area_fan _ O2D), sum_sides_map.
  rewrite (sum_sides_lin _ (tri2 O2D) (tri2 O2D) (k ^ 2) 0) by (intros; unfold tri2, mul2, O2D; cbn; ring).
  rewrite Rmult_0_l, Rplus_0_r, Rabs_mult, (Rabs_right (k ^ 2)) by (apply Rle_ge, pow2_ge_0). field.
Qed.
Lemma triangle_area_agrees a b c : polygon_area [a; b; c] = triangle2_area a b c.
Proof.
  rewrite (area_fan _ a). unfold triangle2_area. do 2 f_equal. unfold sum_sides, tri2, cross2, sub2. cbn. ring.
Qed.
(** cutting a polygon along a diagonal *)
Lemma sum_sides_cut f p l q r : sum_sides f (p :: l ++ q :: r) = sum_sides f (p :: l ++ [q]) + sum_sides f (q :: r ++ [p]) - (f q p + f p q).
Proof.
  unfold sum_sides. cbn [sides]. rewrite !sides_from_app. cbn [sides_from].
  rewrite (sides_from_last p q r), (sides_from_first q p q r).
  fold (lsum f (removelast (sides_from p p l) ++ (last (p :: l) p, q) :: removelast (sides_from p q r) ++ [(last (q :: r) q, p)])).
  fold (lsum f (removelast (sides_from p p l) ++ [(last (p :: l) p, q); (q, p)])).
  fold (lsum f (removelast (sides_from p q r) ++ [(last (q :: r) q, p); (p, q)])).
  assert (L : forall l1 l2, lsum f (l1 ++ l2) = lsum f l1 + lsum f l2).
  { intros l1 l2. unfold lsum. induction l1 as [|[u v] l1 IH]; cbn; [ring|rewrite IH; ring]. }
  rewrite !L. cbn [lsum fold_right fst snd]. fold (lsum f (removelast (sides_from p q r) ++ [(last (q :: r) q, p)])).
  rewrite L. cbn [lsum fold_right fst snd]. ring.
Qed.
Lemma area_cut p l q r s : let A := sum_sides (tri2 O2D) in
  (0 <= s * A (p :: l ++ [q])) -> (0 <= s * A (q :: r ++ [p])) -> s <> 0 ->
  polygon_area (p :: l ++ q :: r) = polygon_area (p :: l ++ [q]) + polygon_area (q :: r ++ [p]).
Proof.
  intros A H1 H2 S. rewrite !(area_fan _ O2D). fold (A (p :: l ++ q :: r)) (A (p :: l ++ [q])) (A (q :: r ++ [p])).
  assert (E : A (p :: l ++ q :: r) = A (p :: l ++ [q]) + A (q :: r ++ [p])).
  { unfold A. rewrite sum_sides_cut. unfold tri2. ring. }
  rewrite E. set (u := A (p :: l ++ [q])) in *. set (v := A (q :: r ++ [p])) in *. clearbody u v. clear E A.
  assert (Q : (0 <= u /\ 0 <= v) \/ (u <= 0 /\ v <= 0)).
  { destruct (Rlt_dec 0 s); [left|right]; split; nra. }
  destruct Q as [[]|[]].
  - rewrite !Rabs_right by lra. field.
  - rewrite !Rabs_left1 by lra. field.
Qed.

(** ** Centre of mass *)
Lemma roll_left_map {A B} (g : A -> B) l : roll_left (map g l) = map g (roll_left l).
Proof. destruct l; cbn; [auto|rewrite map_app; auto]. Qed.
Lemma zip_with_combine {A} (g h : A -> R) f l l' : zip_with f (map g l) (map h l') = map (fun s => f (g (fst s)) (h (snd s))) (combine l l').
Proof. unfold zip_with. revert l'. induction l as [|a l IH]; intros [|b l']; cbn; auto. rewrite IH. reflexivity. Qed.
Lemma zip_with_swap {A} (g h : A -> R) f l l' : zip_with f (map g l') (map h l) = map (fun s => f (g (snd s)) (h (fst s))) (combine l l').
Proof. unfold zip_with. revert l'. induction l as [|a l IH]; intros [|b l']; cbn; auto. rewrite IH. reflexivity. Qed.
Lemma zip_with_map {A} f (g h : A -> R) l : zip_with f (map g l) (map h l) = map (fun s => f (g s) (h s)) l.
Proof. unfold zip_with. induction l; cbn; auto. rewrite IHl; auto. Qed.
Lemma roll_left_sides pts : combine pts (roll_left pts) = sides pts.
Proof. rewrite <- edges_sides. destruct pts; reflexivity. Qed.
Definition com_x pts := sum_sides (fun a b => (x2 a + x2 b) * shoe a b) pts.
Definition com_y pts := sum_sides (fun a b => (y2 a + y2 b) * shoe a b) pts.
Definition sarea pts := / 2 * sum_sides shoe pts.
Lemma com_eq pts : (3 <= length pts)%nat -> center_of_mass pts =
  if negb (isclose (sarea pts) 0 (/ 10 ^ 12)) then Ok (V2 (com_x pts / 6 / sarea pts) (com_y pts / 6 / sarea pts)) else Err NotImplementedError.
Proof.
  intros L. assert (E : center_of_mass pts =
    let x := map x2 pts in let y := map y2 pts in
    let xi_xi1 := zip_with Rplus x (roll_left x) in
    let yi_yi1 := zip_with Rplus y (roll_left y) in
    let xi_yi1 := zip_with Rmult x (roll_left y) in
    let xi1_yi := zip_with Rmult (roll_left x) y in
    let d := zip_with Rminus xi_yi1 xi1_yi in
    let signed_area := / 2 * sumR d in
    if negb (isclose signed_area 0 (/ 10 ^ 12)) then
      Ok (V2 (sumR (zip_with Rmult xi_xi1 d) / 6 / signed_area) (sumR (zip_with Rmult yi_yi1 d) / 6 / signed_area))
    else Err NotImplementedError).
  { destruct pts as [|p [|q [|r l]]]; cbn [length] in L; try lia. reflexivity. }
  rewrite E. clear E L. cbv zeta. rewrite !roll_left_map, (zip_with_swap x2 y2 Rmult pts (roll_left pts)), (zip_with_combine x2 y2 Rmult pts (roll_left pts)),
    (zip_with_combine x2 x2 Rplus pts (roll_left pts)), (zip_with_combine y2 y2 Rplus pts (roll_left pts)), !zip_with_map, !roll_left_sides.
  rewrite (sumR_lsum (fun a b => x2 a * y2 b - x2 b * y2 a)).
  rewrite (sumR_lsum (fun a b => (x2 a + x2 b) * (x2 a * y2 b - x2 b * y2 a))).
  rewrite (sumR_lsum (fun a b => (y2 a + y2 b) * (x2 a * y2 b - x2 b * y2 a))).
  assert (E1 : lsum (fun a b => x2 a * y2 b - x2 b * y2 a) (sides pts) = sum_sides shoe pts) by (apply lsum_ext; intros; unfold shoe; ring).
  assert (E2 : lsum (fun a b => (x2 a + x2 b) * (x2 a * y2 b - x2 b * y2 a)) (sides pts) = com_x pts) by (apply lsum_ext; intros; unfold shoe; ring).
  assert (E3 : lsum (fun a b => (y2 a + y2 b) * (x2 a * y2 b - x2 b * y2 a)) (sides pts) = com_y pts) by (apply lsum_ext; intros; unfold shoe; ring).
  rewrite E1, E2, E3. reflexivity.
Qed.
(** weighted mean of the centroids of the triangles o a b, for any o *)
Lemma com_fan_x o pts : sum_sides (fun a b => tri2 o a b * (x2 o + x2 a + x2 b)) pts = com_x pts.
Proof.
  unfold com_x. apply sum_sides_tel with (g := fun a => (x2 a * y2 o - y2 a * x2 o) * x2 o + (x2 a * x2 a * y2 o) - x2 a * y2 a * x2 o).
  intros. unfold tri2, shoe. ring.
Qed.
Lemma com_fan_y o pts : sum_sides (fun a b => tri2 o a b * (y2 o + y2 a + y2 b)) pts = com_y pts.
Proof.
  unfold com_y. apply sum_sides_tel with (g := fun a => (x2 a * y2 o - y2 a * x2 o) * y2 o - (y2 a * y2 a * x2 o) + x2 a * y2 a * y2 o).
  intros. unfold tri2, shoe. ring.
Qed.
Lemma com_spec pts g o : (3 <= length pts)%nat -> center_of_mass pts = Ok g ->
  sum_sides (tri2 o) pts <> 0 /\
  x2 g * sum_sides (tri2 o) pts = sum_sides (fun a b => tri2 o a b * ((x2 o + x2 a + x2 b) / 3)) pts /\
  y2 g * sum_sides (tri2 o) pts = sum_sides (fun a b => tri2 o a b * ((y2 o + y2 a + y2 b) / 3)) pts.
Proof.
  intros L. rewrite com_eq by auto. destruct (isclose _ _ _) eqn:E; cbn [negb]; [discriminate|].
  apply isclose_0_false in E; [|apply Rlt_le, pow10_inv_pos].
  assert (N : sum_sides shoe pts <> 0).
  { intros C. unfold sarea in E. rewrite C, Rmult_0_r, Rabs_R0 in E. pose proof (pow10_inv_pos 12). lra. }
  intros H; apply Ok_inj in H; subst g. cbn [x2 y2]. rewrite !fan. split; auto.
  rewrite (sum_sides_lin (fun a b => tri2 o a b * ((x2 o + x2 a + x2 b) / 3)) (fun a b => tri2 o a b * (x2 o + x2 a + x2 b)) (fun _ _ => 0) (/ 3) 0) by (intros; field).
  rewrite (sum_sides_lin (fun a b => tri2 o a b * ((y2 o + y2 a + y2 b) / 3)) (fun a b => tri2 o a b * (y2 o + y2 a + y2 b)) (fun _ _ => 0) (/ 3) 0) by (intros; field).
  rewrite com_fan_x, com_fan_y. unfold sarea. split; field; auto.
Qed.
Lemma com_total pts : (3 <= length pts)%nat -> 2 / 10 ^ 12 < Rabs (sum_sides (tri2 O2D) pts) -> exists g, center_of_mass pts = Ok g.
Proof.
  intros L A. rewrite com_eq by auto. rewrite fan in A. destruct (isclose _ _ _) eqn:E; cbn [negb]; [|eauto].
  apply isclose_0 in E; [|apply Rlt_le, pow10_inv_pos]. unfold sarea in E. rewrite Rabs_mult, (Rabs_right (/ 2)) in E by lra. lra.
Qed.
Lemma com_triangle a b c g : center_of_mass [a; b; c] = Ok g -> g = V2 ((x2 a + x2 b + x2 c) / 3) ((y2 a + y2 b + y2 c) / 3).
Proof.
  intros H. apply com_spec with (o := a) in H as (N & X & Y); [|cbn; lia].
  assert (E : sum_sides (tri2 a) [a; b; c] = tri2 a b c) by (unfold sum_sides, tri2; cbn; ring). rewrite E in *.
  apply vec2_ext; cbn [x2 y2]; apply Rmult_eq_reg_r with (tri2 a b c); auto.
  - rewrite X. unfold sum_sides, tri2. cbn. field.
  - rewrite Y. unfold sum_sides, tri2. cbn. field.
Qed.
Lemma com_translation pts o g : (3 <= length pts)%nat -> center_of_mass pts = Ok g -> center_of_mass (polygon_translation pts o) = Ok (translation2 g o).
Proof.
  intros L H. assert (L' : (3 <= length (polygon_translation pts o))%nat) by (unfold polygon_translation; rewrite map_length; auto).
  assert (SA : sarea (polygon_translation pts o) = sarea pts).
  { unfold sarea. f_equal. rewrite <- (fan o), <- (fan O2D). unfold polygon_translation. rewrite sum_sides_map. apply sum_sides_ext.
    intros. unfold tri2, translation2, O2D. cbn. ring. }
  assert (Hd : exists g', center_of_mass (polygon_translation pts o) = Ok g').
  { rewrite com_eq in * by auto. rewrite SA. destruct (negb _); [eauto|discriminate]. }
  destruct Hd as [g' H']. rewrite H'. apply f_equal.
  apply com_spec with (o := O2D) in H as (N & X & Y); auto.
  apply com_spec with (o := o) in H' as (N' & X' & Y'); auto.
  assert (S : sum_sides (tri2 o) (polygon_translation pts o) = sum_sides (tri2 O2D) pts).
  { unfold sarea in SA. rewrite !fan. lra. }
  rewrite S in *.
  apply vec2_ext; apply Rmult_eq_reg_r with (sum_sides (tri2 O2D) pts); auto; cbn [translation2 x2 y2].
  - rewrite X', Rmult_plus_distr_r, X. unfold polygon_translation. rewrite sum_sides_map, (Rmult_comm (x2 o)).
    rewrite (sum_sides_lin _ (fun a b => tri2 O2D a b * ((x2 O2D + x2 a + x2 b) / 3)) (tri2 O2D) 1 (x2 o)); [ring|].
    intros. unfold tri2, translation2, O2D. cbn. field.
  - rewrite Y', Rmult_plus_distr_r, Y. unfold polygon_translation. rewrite sum_sides_map, (Rmult_comm (y2 o)).
    rewrite (sum_sides_lin _ (fun a b => tri2 O2D a b * ((y2 O2D + y2 a + y2 b) / 3)) (tri2 O2D) 1 (y2 o)); [ring|].
    intros. unfold tri2, translation2, O2D. cbn. field.
Qed.

(** ** Second moments *)
Definition mx pt (a b : vec2) := let i := sub2 a pt in let j := sub2 b pt in (y2 i ^ 2 + y2 i * y2 j + y2 j ^ 2) * shoe i j.
Definition my pt (a b : vec2) := let i := sub2 a pt in let j := sub2 b pt in (x2 i ^ 2 + x2 i * x2 j + x2 j ^ 2) * shoe i j.
Definition mxy pt (a b : vec2) := let i := sub2 a pt in let j := sub2 b pt in (x2 i * y2 j + 2 * x2 i * y2 i + 2 * x2 j * y2 j + x2 j * y2 i) * shoe i j.
Lemma fold_left_lsum pt l : forall acc, fold_left (fun acc e =>
    let '(ix, iy, ixy) := acc in
    let i := sub2 (fst e) pt in let j := sub2 (snd e) pt in
    let c := x2 i * y2 j - x2 j * y2 i in
    (ix + (y2 i ^ 2 + y2 i * y2 j + y2 j ^ 2) * c,
     iy + (x2 i ^ 2 + x2 i * x2 j + x2 j ^ 2) * c,
     ixy + (x2 i * y2 j + 2 * x2 i * y2 i + 2 * x2 j * y2 j + x2 j * y2 i) * c)) l acc
  = (fst (fst acc) + lsum (mx pt) l, snd (fst acc) + lsum (my pt) l, snd acc + lsum (mxy pt) l).
Proof.
  induction l as [|[a b] l IH]; intros [[x y] z]; cbn [fold_left lsum fold_right fst snd].
  - rewrite !Rplus_0_r. reflexivity.
  - rewrite IH. cbn [fst snd]. fold (lsum (mx pt) l) (lsum (my pt) l) (lsum (mxy pt) l). unfold mx, my, mxy, shoe. f_equal; [f_equal|]; ring.
Qed.
Lemma second_moment_eq pts pt : second_moment_area pts pt =
  if Rltb (sum_sides (mx pt) pts) 0 then (- sum_sides (mx pt) pts / 12, - sum_sides (my pt) pts / 12, - sum_sides (mxy pt) pts / 24)
  else (sum_sides (mx pt) pts / 12, sum_sides (my pt) pts / 12, sum_sides (mxy pt) pts / 24).
Proof.
  unfold second_moment_area. rewrite fold_left_lsum, edges_sides. cbn [fst snd]. rewrite !Rplus_0_l. reflexivity.
Qed.
(** parallel axes, signed *)
Lemma mx_huygens pts pt g : 3 * sum_sides (tri2 O2D) pts * y2 g = com_y pts ->
  sum_sides (mx pt) pts = sum_sides (mx g) pts + 6 * sum_sides (tri2 O2D) pts * (y2 g - y2 pt) ^ 2.
Proof.
  rewrite fan. intros G.
  assert (E : forall q, sum_sides (mx q) pts = sum_sides (mx O2D) pts - 4 * y2 q * com_y pts + 6 * y2 q ^ 2 * sum_sides shoe pts).
  { intros q. unfold com_y.
    transitivity (sum_sides (fun a b => 1 * mx O2D a b + 1 * (-4 * y2 q * ((y2 a + y2 b) * shoe a b) + 6 * y2 q ^ 2 * shoe a b)) pts).
    - apply sum_sides_tel with (g := fun a => y2 q * x2 a * y2 a ^ 2 - 3 * y2 q ^ 2 * x2 a * y2 a + 3 * y2 q ^ 3 * x2 a - x2 q * (y2 a - y2 q) ^ 3).
      intros. unfold mx, shoe, sub2, O2D. cbn [x2 y2]. ring.
    - rewrite (sum_sides_lin _ (mx O2D) (fun a b => -4 * y2 q * ((y2 a + y2 b) * shoe a b) + 6 * y2 q ^ 2 * shoe a b) 1 1) by (intros; reflexivity).
      rewrite (sum_sides_lin (fun a b => -4 * y2 q * ((y2 a + y2 b) * shoe a b) + 6 * y2 q ^ 2 * shoe a b) (fun a b => (y2 a + y2 b) * shoe a b) shoe (-4 * y2 q) (6 * y2 q ^ 2)) by (intros; ring).
      ring. }
  rewrite (E pt), (E g), <- G. ring.
Qed.
Lemma my_huygens pts pt g : 3 * sum_sides (tri2 O2D) pts * x2 g = com_x pts ->
  sum_sides (my pt) pts = sum_sides (my g) pts + 6 * sum_sides (tri2 O2D) pts * (x2 g - x2 pt) ^ 2.
Proof.
  rewrite fan. intros G.
  assert (E : forall q, sum_sides (my q) pts = sum_sides (my O2D) pts - 4 * x2 q * com_x pts + 6 * x2 q ^ 2 * sum_sides shoe pts).
  { intros q. unfold com_x.
    transitivity (sum_sides (fun a b => 1 * my O2D a b + 1 * (-4 * x2 q * ((x2 a + x2 b) * shoe a b) + 6 * x2 q ^ 2 * shoe a b)) pts).
    - apply sum_sides_tel with (g := fun a => - (x2 q * y2 a * x2 a ^ 2 - 3 * x2 q ^ 2 * y2 a * x2 a + 3 * x2 q ^ 3 * y2 a - y2 q * (x2 a - x2 q) ^ 3)).
      intros. unfold my, shoe, sub2, O2D. cbn [x2 y2]. ring.
    - rewrite (sum_sides_lin _ (my O2D) (fun a b => -4 * x2 q * ((x2 a + x2 b) * shoe a b) + 6 * x2 q ^ 2 * shoe a b) 1 1) by (intros; reflexivity).
      rewrite (sum_sides_lin (fun a b => -4 * x2 q * ((x2 a + x2 b) * shoe a b) + 6 * x2 q ^ 2 * shoe a b) (fun a b => (x2 a + x2 b) * shoe a b) shoe (-4 * x2 q) (6 * x2 q ^ 2)) by (intros; ring).
      ring. }
  rewrite (E pt), (E g), <- G. ring.
Qed.
(** The parallel axis theorem for the values the code returns, when the moments at the two points have the orientation's sign. *)
Lemma second_moment_huygens pts pt g ixp iyp ixyp ixg iyg ixyg : (3 <= length pts)%nat -> center_of_mass pts = Ok g ->
  second_moment_area pts pt = (ixp, iyp, ixyp) -> second_moment_area pts g = (ixg, iyg, ixyg) ->
  0 < sum_sides (mx g) pts * sum_sides (tri2 O2D) pts ->
  ixp = ixg + polygon_area pts * (y2 g - y2 pt) ^ 2 /\ iyp = iyg + polygon_area pts * (x2 g - x2 pt) ^ 2.
Proof.
  intros L G. apply com_spec with (o := O2D) in G as (N & X & Y); auto.
  rewrite (sum_sides_lin (fun a b => tri2 O2D a b * ((x2 O2D + x2 a + x2 b) / 3)) (fun a b => tri2 O2D a b * (x2 O2D + x2 a + x2 b)) (fun _ _ => 0) (/ 3) 0) in X by (intros; field).
  rewrite (sum_sides_lin (fun a b => tri2 O2D a b * ((y2 O2D + y2 a + y2 b) / 3)) (fun a b => tri2 O2D a b * (y2 O2D + y2 a + y2 b)) (fun _ _ => 0) (/ 3) 0) in Y by (intros; field).
  rewrite com_fan_x in X. rewrite com_fan_y in Y. rewrite !second_moment_eq, (area_fan pts O2D).
  pose proof (mx_huygens pts pt g) as HX. pose proof (my_huygens pts pt g) as HY.
  specialize (HX ltac:(lra)). specialize (HY ltac:(lra)).
  set (A := sum_sides (tri2 O2D) pts) in *. set (P := sum_sides (mx pt) pts) in *. set (Q := sum_sides (mx g) pts) in *.
  pose proof (pow2_ge_0 (y2 g - y2 pt)) as D1. set (d := (y2 g - y2 pt) ^ 2) in *.
  intros E1 E2 S. destruct (Rltb P 0) eqn:B1, (Rltb Q 0) eqn:B2; rb.
  - assert (A < 0) by (clearbody A P Q d; clear - S B2; nra). rewrite (Rabs_left A) by auto. split; [apply (f_equal (fun z => fst (fst z))) in E1, E2|apply (f_equal (fun z => snd (fst z))) in E1, E2]; cbn in E1, E2; lra.
  - exfalso. clearbody A P Q d. clear - S HX B1 B2 D1. assert (0 < A) by nra. assert (0 <= A * d) by (apply Rmult_le_pos; lra). lra.
  - exfalso. clearbody A P Q d. clear - S HX B1 B2 D1. assert (0 < - A) by nra. assert (0 <= (- A) * d) by (apply Rmult_le_pos; lra). lra.
  - assert (0 < A) by (clearbody A P Q d; clear - S B2; nra). rewrite (Rabs_right A) by lra. split; [apply (f_equal (fun z => fst (fst z))) in E1, E2|apply (f_equal (fun z => snd (fst z))) in E1, E2]; cbn in E1, E2; lra.
Qed.
Lemma second_moment_translation pts pt o : second_moment_area (polygon_translation pts o) (translation2 pt o) = second_moment_area pts pt.
Proof.
  rewrite !second_moment_eq. unfold polygon_translation. rewrite !sum_sides_map.
  set (tr := fun p => translation2 p o).
  assert (E1 : sum_sides (fun a b => mx (translation2 pt o) (tr a) (tr b)) pts = sum_sides (mx pt) pts)
    by (apply sum_sides_ext; intros; unfold tr, mx, shoe, sub2, translation2; cbn [x2 y2]; ring).
  assert (E2 : sum_sides (fun a b => my (translation2 pt o) (tr a) (tr b)) pts = sum_sides (my pt) pts)
    by (apply sum_sides_ext; intros; unfold tr, my, shoe, sub2, translation2; cbn [x2 y2]; ring).
  assert (E3 : sum_sides (fun a b => mxy (translation2 pt o) (tr a) (tr b)) pts = sum_sides (mxy pt) pts)
    by (apply sum_sides_ext; intros; unfold tr, mxy, shoe, sub2, translation2; cbn [x2 y2]; ring).
  unfold tr in *. rewrite E1, E2, E3. reflexivity.
Qed.
Lemma second_moment_reverse pts pt : sum_sides (mx pt) pts <> 0 -> second_moment_area (rev pts) pt = second_moment_area pts pt.
Proof.
  intros N. rewrite !second_moment_eq, !sum_sides_rev.
  rewrite (sum_sides_lin (fun a b => mx pt b a) (mx pt) (mx pt) (-1) 0) by (intros; unfold mx, shoe; ring).
  rewrite (sum_sides_lin (fun a b => my pt b a) (my pt) (my pt) (-1) 0) by (intros; unfold my, shoe; ring).
  rewrite (sum_sides_lin (fun a b => mxy pt b a) (mxy pt) (mxy pt) (-1) 0) by (intros; unfold mxy, shoe; ring).
  destruct (Rltb (-1 * _ + _) 0) eqn:B1, (Rltb (sum_sides (mx pt) pts) 0) eqn:B2; rb; try lra;
    apply f_equal2; try apply f_equal2; field.
Qed.

(** ** __eq__, polygon_distance *)
Lemma polygon_eq_prefix a b : polygon_eq a (a ++ b) = true.
Proof.
  unfold polygon_eq. induction a as [|p a IH]; [reflexivity|]. cbn. rewrite IH. unfold vec2_eqb.
  assert (E : forall x, Reqb x x = true) by (intros; apply Reqb_spec; auto). rewrite !E. reflexivity.
Qed.
Lemma polygon_eq_spec a b : length a = length b -> (polygon_eq a b = true <-> a = b).
Proof.
  unfold polygon_eq. revert b. induction a as [|p a IH]; intros [|q b]; cbn; try discriminate; [tauto|].
  intros L. rewrite andb_true_iff, IH by lia. unfold vec2_eqb. rewrite andb_true_iff, !Reqb_spec. split.
  - intros [[H1 H2] ->]. f_equal. apply vec2_ext; auto.
  - intros H; injection H as -> ->; auto.
Qed.
Lemma fold_Rmin_le l x : fold_left Rmin l x <= x /\ (forall y, In y l -> fold_left Rmin l x <= y) /\ (fold_left Rmin l x = x \/ In (fold_left Rmin l x) l).
Proof.
  revert x. induction l as [|a l IH]; intros x; cbn [fold_left].
  - split; [lra|]. split; [intros ? []|auto].
  - destruct (IH (Rmin x a)) as (H1 & H2 & H3). pose proof (Rmin_l x a). pose proof (Rmin_r x a). split; [lra|]. split.
    + intros y [->|I]; [lra|auto].
    + destruct H3 as [H3|H3]; [|right; right; auto]. rewrite H3. unfold Rmin. destruct (Rle_dec x a); [auto|right; left; auto].
Qed.
(** what polygon_distance computes *)
Lemma polygon_distance_spec p a b d : polygon_distance (p :: a) b = Ok d ->
  (exists q, In q b /\ d = point_distance2 p q) /\ (forall q, In q b -> d <= point_distance2 p q).
Proof.
  unfold polygon_distance. destruct b as [|q r]; [discriminate|]. intros H; apply Ok_inj in H; subst d.
  destruct (fold_Rmin_le (map (point_distance2 p) r) (point_distance2 p q)) as (H1 & H2 & H3). split.
  - destruct H3 as [H3|H3]; [exists q; split; [left; auto|auto]|]. apply in_map_iff in H3 as (z & E & I). exists z. split; [right; auto|auto].
  - intros z [->|I]; auto. apply H2, in_map, I.
Qed.
(** ... which is not symmetric, hence not the distance of the two polygons *)
Lemma polygon_distance_wrong : exists a b d e, polygon_distance a b = Ok d /\ polygon_distance b a = Ok e /\ e < d /\
  exists p q, In p a /\ In q b /\ point_distance2 p q < d.
Proof.
  exists [V2 0 0; V2 1 0; V2 1 1], [V2 2 0; V2 3 0; V2 3 1], (point_distance2 (V2 0 0) (V2 2 0)), (point_distance2 (V2 2 0) (V2 1 0)).
  assert (S1 : forall x y, point_distance2 (V2 x 0) (V2 y 0) = Rabs (x - y)).
  { intros. unfold point_distance2, norm2, sub2. cbn. replace ((x - y) * (x - y) + (0 - 0) * (0 - 0)) with (Rsqr (x - y)) by (unfold Rsqr; ring). apply sqrt_Rsqr_abs. }
  assert (S2 : forall x y, Rabs (x - y) <= point_distance2 (V2 x 0) (V2 y 1)).
  { intros. unfold point_distance2, norm2, sub2. cbn. rewrite <- sqrt_Rsqr_abs. apply sqrt_le_1_alt. unfold Rsqr. lra. }
  split; [|split; [|split]].
  - unfold polygon_distance. cbn [map fold_left]. f_equal. rewrite !S1. pose proof (S2 0 3) as Q. 
    rewrite Rabs_left in Q by lra. rewrite !(Rabs_left (0 - _)) by lra. rewrite !Rmin_left; try lra. apply Rle_trans with (2:=Q). rewrite Rmin_left; lra.
  - unfold polygon_distance. cbn [map fold_left]. f_equal. rewrite !S1. pose proof (S2 2 1) as Q.
    rewrite Rabs_right in Q by lra. rewrite !(Rabs_right (2 - _)) by lra. rewrite (Rmin_right (2 - 0)) by lra. rewrite Rmin_left; lra.
  - rewrite !S1, Rabs_right, Rabs_left by lra. lra.
  - exists (V2 1 0), (V2 2 0). cbn. repeat split; auto. rewrite !S1. rewrite !Rabs_left by lra. lra.
Qed.
