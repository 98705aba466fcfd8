(** Proofs about extruded and revolved profiles. *)
From Coq Require Import Reals Lra Lia List Bool ZArith Permutation.
From Verif.Model Require Import Base RBase Vec Frame Polygon Geometry Plane Curves Edges Profiles.
From Verif.Spec Require Import VecSpec FrameSpec PolygonSpec SolidSpec ProfilesSpec.
From Verif.Proofs Require Import VecP PolyAreaP PlaneP.
Import ListNotations.
Open Scope R_scope.

Lemma height_eq f p z : at_height f p z = add3 (add3 (add3 (mul3 (bu (fb3 f)) (x2 p)) (mul3 (bv (fb3 f)) (y2 p))) (mul3 (bw (fb3 f)) z)) (org3 f).
Proof. reflexivity. Qed.
Lemma sum_flat {A} (g : A -> list R) l : fold_right Rplus 0 (flat_map g l) = fold_right (fun s acc => fold_right Rplus 0 (g s) + acc) 0 l.
Proof.
  induction l as [|a l IH]; [reflexivity|]. cbn [flat_map fold_right]. rewrite <- IH. induction (g a) as [|x r IHr]; cbn [app fold_right]; [ring|]. rewrite IHr. ring.
Qed.
Lemma map_flat {A B C} (g : B -> C) (h : A -> list B) l : map g (flat_map h l) = flat_map (fun a => map g (h a)) l.
Proof. induction l; [reflexivity|]. cbn [flat_map]. rewrite map_app. now f_equal. Qed.
Lemma side_volume f h c a b o : let D := dot3 (cross3 (bu (fb3 f)) (bv (fb3 f))) (bw (fb3 f)) in
  let g := fun q : vec2 => dot3 (bw (fb3 f)) (cross3 (sub3 (org3 f) o) (add3 (mul3 (bu (fb3 f)) (x2 q)) (mul3 (bv (fb3 f)) (y2 q)))) in
  tetra6 o (at_height f c 0, at_height f b 0, at_height f a 0) + tetra6 o (at_height f c h, at_height f a h, at_height f b h)
  + tetra6 o (at_height f a 0, at_height f b 0, at_height f b h) + tetra6 o (at_height f a 0, at_height f b h, at_height f a h)
  = h * D * tri2 c a b + 2 * h * D * shoe a b + (2 * h * g b - 2 * h * g a).
Proof.
  cbv zeta. unfold tetra6. rewrite !height_eq. destruct f as [[o1 o2 o3] [[u1 u2 u3] [v1 v2 v3] [w1 w2 w3]]], o as [p1 p2 p3], a as [a1 a2], b as [b1 b2], c as [c1 c2].
  unfold dot3, cross3, sub3, add3, mul3, tri2, shoe. cbn [fb3 org3 bu bv bw x3 y3 z3 x2 y2]. ring.
Qed.
Lemma prism_volume f h pts o : signed_volume o (prism f h pts) = h * dot3 (cross3 (bu (fb3 f)) (bv (fb3 f))) (bw (fb3 f)) * (sum_sides shoe pts / 2).
Proof.
  set (D := dot3 _ _). set (g := fun q : vec2 => h / 3 * dot3 (bw (fb3 f)) (cross3 (sub3 (org3 f) o) (add3 (mul3 (bu (fb3 f)) (x2 q)) (mul3 (bv (fb3 f)) (y2 q))))).
  set (c := hd O2D pts). unfold signed_volume, prism. rewrite map_flat, sum_flat. fold c.
  transitivity (sum_sides (fun a b => (h * D / 6 * tri2 c a b + h * D / 3 * shoe a b) + (g b - g a)) pts).
  - unfold sum_sides. induction (sides pts) as [|[a b] l IH]; [reflexivity|]. cbn [fold_right fst snd]. rewrite <- IH. f_equal. cbn [map fold_right].
    pose proof (side_volume f h c a b o) as E. cbv zeta in E. unfold g, D. lra.
  - rewrite (sum_sides_tel _ (fun a b => h * D / 6 * tri2 c a b + h * D / 3 * shoe a b) g) by reflexivity.
    rewrite (sum_sides_lin _ (tri2 c) shoe (h * D / 6) (h * D / 3)) by reflexivity. rewrite fan. field.
Qed.
Lemma direct_det f : direct (fb3 f) -> dot3 (cross3 (bu (fb3 f)) (bv (fb3 f))) (bw (fb3 f)) = 1.
Proof. intros ((_ & _ & W & _) & E). rewrite E. exact W. Qed.
Lemma prism_enclosed f h pts o : direct (fb3 f) -> Rabs (signed_volume o (prism f h pts)) = Rabs h * polygon_area pts.
Proof.
  intros D. rewrite prism_volume, direct_det by auto. rewrite (area_fan pts O2D), fan. rewrite Rmult_1_r, Rabs_mult. f_equal. unfold Rdiv. rewrite Rabs_mult. f_equal. apply Rabs_right. lra.
Qed.
(** the volume is that of the prism over the outer contour less those over the inner contours *)
Lemma extruded_volume_ok f outer inners h o : direct (fb3 f) -> 0 <= h ->
  extruded_volume (Extruded f outer inners h) = Rabs (signed_volume o (prism f h outer)) - fold_right Rplus 0 (map (fun c => Rabs (signed_volume o (prism f h c))) inners).
Proof.
  intros D H. unfold extruded_volume, extruded_area, extrusion_vector. cbn [eframe eouter einners elength]. rewrite prism_enclosed by auto. rewrite (Rabs_right h) by lra.
  replace (dot3 (mul3 (bw (fb3 f)) h) (bw (fb3 f))) with h. 2:{ destruct D as ((_ & _ & W & _) & _). transitivity (h * dot3 (bw (fb3 f)) (bw (fb3 f))); [rewrite W; ring|unfold dot3, mul3; cbn [x3 y3 z3]; ring]. }
  unfold sumR. rewrite Rmult_minus_distr_r. f_equal; [ring|]. induction inners as [|c l IH]; [cbn; ring|]. cbn [map fold_right]. rewrite <- IH. rewrite prism_enclosed by auto. rewrite (Rabs_right h) by lra. ring.
Qed.
Lemma extruded_down f outer inners h : direct (fb3 f) -> extruded_volume (Extruded f outer inners (- h)) = - extruded_volume (Extruded f outer inners h).
Proof. intros D. unfold extruded_volume, extruded_area, extrusion_vector, dot3, mul3. cbn [eframe eouter einners elength x3 y3 z3]. ring. Qed.

(** closed skin *)
Lemma flat_app {A B} (g h : A -> list B) l : Permutation (flat_map (fun a => g a ++ h a) l) (flat_map g l ++ flat_map h l).
Proof.
  induction l as [|a l IH]; [constructor|]. cbn [flat_map]. rewrite <- !app_assoc. apply Permutation_app_head. etransitivity; [apply Permutation_app_head, IH|]. rewrite !app_assoc. apply Permutation_app_tail, Permutation_app_comm.
Qed.
Lemma sides_ends {B} (g : vec2 -> B) pts : Permutation (map (fun s => g (fst s)) (sides pts)) (map (fun s => g (snd s)) (sides pts)).
Proof.
  assert (F : forall a r, forall p, map fst (sides_from p a r) = a :: r /\ map snd (sides_from p a r) = r ++ [p]).
  { intros a r. revert a. induction r as [|b r IH]; intros a p; cbn; [auto|]. destruct (IH b p) as (-> & ->). auto. }
  rewrite <- (map_map fst g), <- (map_map snd g). apply Permutation_map. destruct pts as [|a r]; [constructor|]. cbn [sides]. destruct (F a r a) as (E1 & E2). rewrite E1, E2. apply Permutation_cons_append.
Qed.
Lemma flat_cons {A B} (x : A -> B) (h : A -> list B) l : Permutation (flat_map (fun a => x a :: h a) l) (map x l ++ flat_map h l).
Proof.
  induction l as [|a l IH]; [constructor|]. cbn [flat_map map app]. constructor. etransitivity; [apply Permutation_app_head, IH|]. rewrite !app_assoc. apply Permutation_app_tail, Permutation_app_comm.
Qed.
Lemma flat_flat {A B C} (g : B -> list C) (h : A -> list B) l : flat_map g (flat_map h l) = flat_map (fun a => flat_map g (h a)) l.
Proof. induction l; [reflexivity|]. cbn [flat_map]. rewrite flat_map_app. now f_equal. Qed.
Lemma flat_nil {A B} (l : list A) : flat_map (fun _ => @nil B) l = [].
Proof. induction l; auto. Qed.
(** the lists of the values of functions, gathered function by function *)
Lemma flat_gather {A B} (xs : list (A -> B)) l : Permutation (flat_map (fun a => map (fun x => x a) xs) l) (flat_map (fun x => map x l) xs).
Proof.
  induction xs as [|x xs IH]; [cbn; rewrite flat_nil; constructor|]. cbn [map flat_map]. etransitivity; [apply (flat_cons x (fun a => map (fun x => x a) xs))|]. apply Permutation_app_head, IH.
Qed.
Definition edge_maps (f : frame3) (h : R) (c : vec2) : list (vec2 * vec2 -> vec3 * vec3) :=
  [fun s => (at_height f c 0, at_height f (snd s) 0); fun s => (at_height f (snd s) 0, at_height f (fst s) 0); fun s => (at_height f (fst s) 0, at_height f c 0);
   fun s => (at_height f c h, at_height f (fst s) h); fun s => (at_height f (fst s) h, at_height f (snd s) h); fun s => (at_height f (snd s) h, at_height f c h);
   fun s => (at_height f (fst s) 0, at_height f (snd s) 0); fun s => (at_height f (snd s) 0, at_height f (snd s) h); fun s => (at_height f (snd s) h, at_height f (fst s) 0);
   fun s => (at_height f (fst s) 0, at_height f (snd s) h); fun s => (at_height f (snd s) h, at_height f (fst s) h); fun s => (at_height f (fst s) h, at_height f (fst s) 0)].
Lemma prism_sides f h pts : flat_map sides3 (prism f h pts) = flat_map (fun s => map (fun x => x s) (edge_maps f h (hd O2D pts))) (sides pts).
Proof. unfold prism. rewrite flat_flat. apply flat_map_ext. intros [a b]. reflexivity. Qed.
Lemma perm_lists {B} (M : nat -> list B) l l' : Permutation l l' -> Permutation (flat_map M l) (flat_map M l').
Proof. apply Permutation_flat_map. Qed.
Lemma prism_closed f h pts : closed_surface (prism f h pts).
Proof.
  unfold closed_surface. rewrite prism_sides. set (c := hd O2D pts). set (S := sides pts).
  rewrite map_flat. etransitivity; [apply flat_gather|]. symmetry.
  transitivity (flat_map (fun s => map (fun x => x s) (map (fun x s => (snd (x s), fst (x s))) (edge_maps f h c))) S).
  { apply Permutation_refl' . apply flat_map_ext. intros s. now rewrite !map_map. }
  etransitivity; [apply flat_gather|]. pose (M := fun i => map (nth i (edge_maps f h c) (fun _ => (O3D, O3D))) S).
  transitivity (flat_map M [2; 6; 0; 5; 10; 3; 1; 11; 9; 8; 4; 7]%nat).
  - unfold M, edge_maps, S. cbn [map flat_map nth fst snd].
    apply Permutation_app; [symmetry; apply (sides_ends (fun q => (at_height f q 0, at_height f c 0)))|].
    apply Permutation_app; [reflexivity|].
    apply Permutation_app; [apply (sides_ends (fun q => (at_height f c 0, at_height f q 0)))|].
    apply Permutation_app; [apply (sides_ends (fun q => (at_height f q h, at_height f c h)))|].
    apply Permutation_app; [reflexivity|].
    apply Permutation_app; [symmetry; apply (sides_ends (fun q => (at_height f c h, at_height f q h)))|].
    apply Permutation_app; [reflexivity|].
    apply Permutation_app; [symmetry; apply (sides_ends (fun q => (at_height f q h, at_height f q 0)))|].
    apply Permutation_app; [reflexivity|]. apply Permutation_app; [reflexivity|]. apply Permutation_app; [reflexivity|].
    apply Permutation_app; [apply (sides_ends (fun q => (at_height f q 0, at_height f q h)))|]. reflexivity.
  - transitivity (flat_map M (seq 0 12)).
    + apply perm_lists. apply NoDup_Permutation; [repeat (constructor; [cbn; intuition discriminate|]); constructor|apply seq_NoDup|]. intros x. cbn. intuition.
    + unfold M, edge_maps. cbn [flat_map nth seq app]. reflexivity.
Qed.
(** the faces over a side *)
Lemma extrusion_corners s d : fst s <> snd s -> d <> O3D -> exists p0 p1 p2 p3, segment_extrusion s d = Ok [p0; p1; p2; p3] /\
  near (/ 10 ^ 12 / 2) p0 (fst s) /\ near (/ 10 ^ 12 / 2) p1 (snd s) /\ near (/ 10 ^ 12 / 2) p2 (add3 (snd s) d) /\ near (/ 10 ^ 12 / 2) p3 (add3 (fst s) d).
Proof.
  intros N D. unfold segment_extrusion. set (e := sub3 (snd s) (fst s)).
  assert (E0 : e <> O3D). { intros E. apply N. unfold e, O3D in E. destruct s as [[a1 a2 a3] [b1 b2 b3]]. unfold sub3 in E. cbn [fst snd x3 y3 z3] in *. injection E as E1 E2 E3. f_equal; lra. }
  assert (U : forall w, w <> O3D -> unit_vector3 w = Ok (mul3 w (/ norm3 w)) /\ mul3 (mul3 w (/ norm3 w)) (norm3 w) = w).
  { intros w W. split; [apply unit3_ok; auto|]. pose proof (norm3_ne w W). unfold mul3. cbn [x3 y3 z3]. apply vec3_ext; cbn [x3 y3 z3]; field; lra. }
  destruct (U e E0) as (E1 & E2). destruct (U d D) as (D1 & D2). rewrite E1, D1. cbn [bind]. cbn [map].
  assert (L : point_distance3 (fst s) (snd s) = norm3 e) by (rewrite dist3_sym; reflexivity). rewrite L. set (u := mul3 e (/ norm3 e)) in *. set (v := mul3 d (/ norm3 d)) in *.
  do 4 eexists. split; [reflexivity|].
  assert (R : forall a b q, to_3d (V2 a b) (fst s) u v = q -> near (/ 10 ^ 12 / 2) (point_to_3d (V2 a b) (fst s) u v) q) by (intros a b q <-; unfold point_to_3d; cbv zeta; repeat split; cbn [x3 y3 z3]; apply py_round_err).
  assert (T : forall a b, to_3d (V2 a b) (fst s) u v = add3 (fst s) (add3 (mul3 u a) (mul3 v b))) by (intros a b; unfold to_3d, add3, mul3; cbn [x2 y2 x3 y3 z3]; apply vec3_ext; cbn [x3 y3 z3]; ring).
  assert (Z : forall w, mul3 w 0 = O3D) by (intros w; unfold mul3, O3D; apply vec3_ext; cbn [x3 y3 z3]; ring).
  assert (A : forall w, add3 w O3D = w /\ add3 O3D w = w) by (intros w; unfold add3, O3D; split; apply vec3_ext; cbn [x3 y3 z3]; ring).
  assert (SE : add3 (fst s) e = snd s) by (unfold e, add3, sub3; apply vec3_ext; cbn [x3 y3 z3]; ring).
  clearbody u v. split; [|split; [|split]]; apply R; rewrite T, ?E2, ?D2, ?Z.
  - now rewrite !(proj1 (A _)).
  - rewrite (proj1 (A _)). exact SE.
  - rewrite <- SE. unfold add3. apply vec3_ext; cbn [x3 y3 z3]; ring.
  - now rewrite (proj2 (A _)).
Qed.
(** the check of the inner contours *)
Lemma new_extruded_iff f outer inners h : (exists e, new_extruded f outer inners h = Ok e) <-> forall c, In c inners -> polygon_area c <= polygon_area outer.
Proof.
  unfold new_extruded. split.
  - intros (e & E) c Hc. destruct (existsb _ _) eqn:X; [discriminate|]. apply Rnot_lt_le. intros L. assert (T : existsb (fun c => Rltb (polygon_area outer) (polygon_area c)) inners = true); [|congruence].
    apply existsb_exists. exists c. split; [auto|]. now apply Rltb_spec.
  - intros H. destruct (existsb _ _) eqn:X; [|eauto]. apply existsb_exists in X as (c & Hc & L). apply Rltb_spec in L. specialize (H c Hc). lra.
Qed.
Definition square (x : R) : list vec2 := [V2 x 0; V2 (x + 1) 0; V2 (x + 1) 1; V2 x 1].
Lemma square_area x : polygon_area (square x) = 1.
Proof. rewrite (area_fan _ O2D). unfold square, sum_sides, tri2, O2D. cbn [sides sides_from fold_right fst snd x2 y2]. match goal with |- Rabs ?e / 2 = 1 => replace e with 2 by ring end. rewrite Rabs_right by lra. field. Qed.
Definition std_frame := F3 O3D (B3 X3D Y3D Z3D).
Lemma std_direct : direct (fb3 std_frame).
Proof. unfold direct, orthonormal, std_frame, X3D, Y3D, Z3D, dot3, cross3. cbn [fb3 bu bv bw x3 y3 z3]. split; [repeat split; ring|]. f_equal; ring. Qed.
Lemma far_hole : exists f outer inner e, direct (fb3 f) /\ (forall p, In p outer -> 0 <= x2 p <= 1) /\ (forall p, In p inner -> 10 <= x2 p) /\
  new_extruded f outer [inner] 1 = Ok e /\ enclosed (prism f 1 outer) = 1 /\ extruded_volume e = 0.
Proof.
  exists std_frame, (square 0), (square 10). destruct (proj2 (new_extruded_iff std_frame (square 0) [square 10] 1)) as (e & E). { intros c [<-|[]]. rewrite !square_area. lra. }
  exists e. split; [exact std_direct|]. split; [|split; [|split; [exact E|split]]].
  - intros p Hp. unfold square in Hp. cbn in Hp. destruct Hp as [<-|[<-|[<-|[<-|[]]]]]; cbn [x2]; lra.
  - intros p Hp. unfold square in Hp. cbn in Hp. destruct Hp as [<-|[<-|[<-|[<-|[]]]]]; cbn [x2]; lra.
  - unfold enclosed. rewrite prism_enclosed by exact std_direct. rewrite square_area, Rabs_R1. ring.
  - unfold new_extruded in E. destruct (existsb _ _); [discriminate|]. injection E as <-. unfold extruded_volume, extruded_area. cbn [eouter einners map sumR fold_right]. rewrite !square_area. ring.
Qed.
(** negative lengths: the same solid on the other side has a negative volume *)
Lemma negative_length : exists f outer e, direct (fb3 f) /\ new_extruded f outer [] (-1) = Ok e /\ enclosed (prism f (-1) outer) = 1 /\ extruded_volume e = -1.
Proof.
  exists std_frame, (square 0), (Extruded std_frame (square 0) [] (-1)). split; [exact std_direct|]. split; [reflexivity|]. split.
  - unfold enclosed. rewrite prism_enclosed by exact std_direct. rewrite square_area. rewrite Rabs_left by lra. ring.
  - replace (-1) with (- (1)) by ring. rewrite extruded_down by exact std_direct. rewrite (extruded_volume_ok _ _ _ 1 O3D) by (exact std_direct || lra). rewrite prism_enclosed by exact std_direct. rewrite square_area, Rabs_R1. cbn [map fold_right]. ring.
Qed.
(** revolved profiles *)
Lemma revolved_raises r : exists e, revolved_volume r = Err e.
Proof. unfold revolved_volume. cbv zeta. destruct (plane_projection3d _ _ _ _); cbn [bind]; eauto. Qed.
Lemma revolved_attribute r : direct (fb3 (rframe r)) -> revolved_volume r = Err AttributeError.
Proof.
  intros D. unfold revolved_volume. cbv zeta. unfold plane_projection3d. rewrite (proj2 D). replace (unit_vector3 (bw (fb3 (rframe r)))) with (Ok (bw (fb3 (rframe r)))); [reflexivity|]. symmetry. apply unit3_ok.
  destruct D as ((_ & _ & W & _) & _). assert (N : norm3 (bw (fb3 (rframe r))) = 1) by (unfold norm3; rewrite <- sqrt_1; f_equal; exact W). split.
  - intros E. rewrite E in W. unfold dot3 in W. cbn [x3 y3 z3] in W. lra.
  - rewrite N. unfold mul3. apply vec3_ext; cbn [x3 y3 z3]; field.
Qed.
Lemma new_revolved_ex : exists r, new_revolved std_frame (square 1) O3D Y3D (2 * PI) = Ok r /\ direct (fb3 (rframe r)).
Proof.
  unfold new_revolved. replace (is_close3 _ _ _) with false; [eexists; split; [reflexivity|exact std_direct]|]. symmetry. pose proof (pow10_inv_pos 6). unfold is_close3. apply isclose_0_false; [lra|].
  replace (point_distance3 _ _) with 1. 2:{ symmetry. unfold point_distance3, norm3, std_frame, cross3, sub3, O3D, Y3D, Z3D. cbn [fb3 bw x3 y3 z3]. transitivity (sqrt 1); [f_equal; ring|apply sqrt_1]. }
  rewrite Rabs_R1. replace (10 ^ 6) with 1000000 by ring. lra.
Qed.
