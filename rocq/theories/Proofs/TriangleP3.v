(** Bisection of a triangle: the whole; and the sampling of a triangle. *)
From Coq Require Import Reals Lra Lia List ZArith Bool.
From Verif.Model Require Import Base RBase Vec Frame BBox Mesh Edges Plane Triangle3.
From Verif.Spec Require Import VecSpec TriangleSpec.
From Verif.Proofs Require Import VecP EdgesP3 MeshGeomP MeshP TriangleP TriangleP2.
Import ListNotations.
Open Scope R_scope.

Lemma mapM_self {A} (f : A -> res A) l : (forall a, In a l -> f a = Ok a) -> mapM f l = Ok l.
Proof. induction l as [|a l IH]; intros H; auto. cbn [mapM]. rewrite (H a) by (left; auto). cbn [bind]. rewrite IH by (intros; apply H; right; auto). reflexivity. Qed.
Lemma round_cover res x ts : (exists u, In u (flat_map (bisect res) ts) /\ in_triangle u x) <-> exists u, In u ts /\ in_triangle u x.
Proof.
  split.
  - intros (u & I & J). apply in_flat_map in I as (v & I & K). exists v. split; auto. apply (in_bisect res). eauto.
  - intros (v & I & J). apply (in_bisect res) in J as (u & K & L). exists u. split; auto. apply in_flat_map. eauto.
Qed.
Lemma bisect_main t resolution : ~ flat3 t -> 0 < resolution ->
  exists n ts, (forall fuel, (n <= fuel)%nat -> subdescription_to_triangles fuel t resolution = Ok ts) /\
    (forall u, In u ts -> sides_at_most resolution u /\ ~ flat3 u) /\
    total (map area3 ts) = area3 t /\
    (forall x, in_triangle t x <-> exists u, In u ts /\ in_triangle u x).
Proof.
  intros N P. destruct (bisect_ends resolution t P) as (k & A & n & B). exists n, (rounds k resolution [t]).
  assert (NF : forall u, In u (rounds k resolution [t]) -> ~ flat3 u).
  { apply (rounds_inv (fun ts => forall u, In u ts -> ~ flat3 u)); [|intros u [<- | []]; auto]. intros ts H u I F. apply in_flat_map in I as (v & I & J). apply (H v I). eapply bisect_flat; eauto. }
  split; [intros fuel F; unfold subdescription_to_triangles; rewrite (B fuel F); cbn [bind]; apply mapM_self; intros u I; apply tri_new_ok; auto|].
  split; [intros u I; split; [apply diam_le|]; auto|]. split.
  - apply (rounds_inv (fun ts => total (map area3 ts) = area3 t)); [intros ts H; rewrite round_area; auto|unfold total; cbn [map fold_right]; ring].
  - intros x. apply (rounds_inv (fun ts => in_triangle t x <-> exists u, In u ts /\ in_triangle u x)); [intros ts H; rewrite round_cover; auto|].
    split; [intros; exists t; split; [left|]; auto|intros (u & [<- | []] & I); auto].
Qed.
Lemma bisect_small t resolution fuel : ~ flat3 t -> sides_at_most resolution t -> subdescription_to_triangles (S fuel) t resolution = Ok [t].
Proof.
  intros N H. apply diam_le in H. unfold subdescription_to_triangles. rewrite loop_unfold. destruct (bisect_cases resolution t) as [(_ & E) | (Q & _)]; [|lra]. cbn [flat_map]. rewrite E. cbn [length app Nat.eqb bind mapM]. rewrite tri_new_ok by auto. reflexivity.
Qed.
Lemma diam_not_flat t : ~ flat3 t -> 0 < diam t.
Proof.
  destruct t as [[a b] c]. intros N. rewrite diam_is. assert (a <> b) by (intros ->; apply N; unfold flat3, area_vector, cross3, sub3; cbn [x3 y3 z3]; f_equal; ring).
  assert (D a b <> 0) by (rewrite dist3_zero; auto). pose proof (D_pos a b). pose proof (Rmax_l (D a b) (D b c)). pose proof (Rmax_l (Rmax (D a b) (D b c)) (D c a)). lra.
Qed.
Lemma bisect_forever t resolution fuel : ~ flat3 t -> resolution <= 0 -> subdescription_to_triangles fuel t resolution = Err OutOfFuel.
Proof.
  intros N P. unfold subdescription_to_triangles. assert (G : forall fuel ts, ts <> [] -> (forall u, In u ts -> ~ flat3 u) -> bisect_loop fuel resolution ts = Err OutOfFuel).
  { clear fuel. induction fuel as [|fuel IH]; intros ts Ne H; auto. rewrite loop_unfold. replace (Nat.eqb _ _) with false.
    - apply IH; [|intros u I F; apply in_flat_map in I as (v & I & J); apply (H v I); eapply bisect_flat; eauto].
      pose proof (round_len resolution ts) as (L & _). destruct ts; [congruence|]. intros E. rewrite E in L. cbn in L. lia.
    - symmetry. apply Nat.eqb_neq. intros E0. assert (E := proj1 (proj2 (round_len resolution ts)) E0). destruct ts as [|u ts]; [congruence|]. assert (K := E u (or_introl eq_refl)). pose proof (diam_not_flat u (H u (or_introl eq_refl))). lra. }
  rewrite G; [reflexivity|discriminate|intros u [<- | []]; auto].
Qed.
