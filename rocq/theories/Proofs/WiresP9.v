(** A shuffled triangle meets the hypotheses of the ordering theorems. *)
From Coq Require Import Reals List Permutation Lra Lia Bool.
From Verif.Model Require Import Base RBase Vec Frame Geometry Curves Edges Wires.
From Verif.Spec Require Import VecSpec EdgesSpec WiresSpec.
From Verif.Proofs Require Import VecP WiresP WiresP2 WiresP3 WiresP4 WiresP5 WiresP6 WiresP7 WiresP8.
Import ListNotations.
Open Scope R_scope.

Definition triangle : list sg2 := [(V2 0 0, V2 2 0); (V2 0 0, V2 0 2); (V2 0 2, V2 2 0)].
Lemma tri_ends p : In p (ends segments2 triangle) -> p = V2 0 0 \/ p = V2 2 0 \/ p = V2 0 2.
Proof. cbn. intuition. Qed.
Lemma tri_dist p q : In p (ends segments2 triangle) -> In q (ends segments2 triangle) -> p = q \/ 1 <= point_distance2 p q.
Proof.
  intros Hp Hq. apply tri_ends in Hp, Hq. destruct Hp as [-> | [-> | ->]], Hq as [-> | [-> | ->]]; auto; right; apply dist_ge; lra.
Qed.
Lemma tri_ok : (3 <= length triangle)%nat /\ (forall e, In e triangle -> / 10 ^ 6 < sg2_length e) /\ connected segments2 (/ 10 ^ 6) triangle /\ clustered segments2 (/ 10 ^ 6) (ends segments2 triangle) /\
  (forall p, In p (ends segments2 triangle) -> has_degree segments2 (/ 10 ^ 6) triangle p 2).
Proof.
  pose proof tol6 as T. pose proof tol6_1 as T1. split; [cbn; lia|]. split; [|split; [|split]].
  - intros e I. unfold sg2_length. rewrite dist2_sym. cbn in I. destruct I as [<- | [<- | [<- | []]]]; cbn [fst snd].
    + pose proof (dist_ge 0 0 2 0 ltac:(lra)). lra.
    + pose proof (dist_ge 0 0 0 2 ltac:(lra)). lra.
    + pose proof (dist_ge 0 2 2 0 ltac:(lra)). lra.
  - intros A B NA NB Pm. destruct A as [|a A]; [congruence|]. destruct B as [|b B]; [congruence|].
    assert (Ia : In a triangle) by (apply (Permutation_in _ (Permutation_sym Pm)), in_or_app; left; left; auto).
    assert (Ib : In b triangle) by (apply (Permutation_in _ (Permutation_sym Pm)), in_or_app; right; left; auto).
    assert (G : exists p, In p [fst a; snd a] /\ In p [fst b; snd b]).
    { cbn in Ia, Ib. destruct Ia as [<- | [<- | [<- | []]]], Ib as [<- | [<- | [<- | []]]]; cbn [fst snd];
        first [exists (V2 0 0); cbn; tauto | exists (V2 2 0); cbn; tauto | exists (V2 0 2); cbn; tauto]. }
    destruct G as (p & G1 & G2). exists p, p. split; [|split].
    + unfold ends. cbn [flat_map]. apply in_or_app. left. exact G1.
    + unfold ends. cbn [flat_map]. apply in_or_app. left. exact G2.
    + cbn [p_dist segments2]. rewrite dist_self2. auto.
  - intros p q r Hp Hq Hr D1 D2. cbn [p_dist segments2] in *. destruct (tri_dist p q Hp Hq) as [-> | D]; auto. lra.
  - intros p Hp. apply tri_ends in Hp.
    assert (F : forall a b c d, 1 <= (a - c) * (a - c) + (b - d) * (b - d) -> / 10 ^ 6 < p_dist segments2 (V2 a b) (V2 c d)) by (intros; cbn [p_dist segments2]; pose proof (dist_ge a b c d H); lra).
    assert (Z : forall p, p_dist segments2 p p <= / 10 ^ 6) by (intros; cbn [p_dist segments2]; rewrite dist_self2; lra).
    destruct Hp as [-> | [-> | ->]].
    + exists [V2 0 0; V2 0 0], [V2 2 0; V2 0 2; V2 0 2; V2 2 0]. split; [|split; auto; split].
      * cbn. apply perm_skip. apply (perm_swap (V2 0 0) (V2 2 0)).
      * intros q [<- | [<- | []]]; auto.
      * intros q [<- | [<- | [<- | [<- | []]]]]; apply F; lra.
    + exists [V2 2 0; V2 2 0], [V2 0 0; V2 0 0; V2 0 2; V2 0 2]. split; [|split; auto; split].
      * cbn. etransitivity; [apply perm_swap|]. apply perm_skip. symmetry. apply (Permutation_cons_append [V2 0 0; V2 0 0; V2 0 2; V2 0 2]).
      * intros q [<- | [<- | []]]; auto.
      * intros q [<- | [<- | [<- | [<- | []]]]]; apply F; lra.
    + exists [V2 0 2; V2 0 2], [V2 0 0; V2 2 0; V2 0 0; V2 2 0]. split; [|split; auto; split].
      * cbn. apply (Permutation_app_comm [V2 0 0; V2 2 0; V2 0 0] [V2 0 2; V2 0 2; V2 2 0]) || (change [V2 0 0; V2 2 0; V2 0 0; V2 0 2; V2 0 2; V2 2 0] with ([V2 0 0; V2 2 0; V2 0 0] ++ [V2 0 2; V2 0 2] ++ [V2 2 0]); rewrite app_assoc, (Permutation_app_comm [V2 0 0; V2 2 0; V2 0 0] [V2 0 2; V2 0 2]); reflexivity).
      * intros q [<- | [<- | []]]; auto.
      * intros q [<- | [<- | [<- | [<- | []]]]]; apply F; lra.
Qed.
Lemma tri_ordered : exists r, order_contour segments2 triangle (/ 10 ^ 6) = Ok r /\ same_edges segments2 triangle r /\ contour_is_ordered segments2 r (/ 10 ^ 6) = Ok true.
Proof. destruct tri_ok as (L & G & C & Cl & D). apply w_order_contour; auto using segments2_ok, tol6. Qed.
Lemma tri_not_ordered : contour_is_ordered segments2 triangle (/ 10 ^ 6) = Ok false.
Proof.
  destruct (contour_ordered_spec segments2 segments2_ok triangle (/ 10 ^ 6) tol6) as (b & B & S); [discriminate|]. rewrite B. f_equal. destruct b; auto. destruct (proj1 S eq_refl) as (J & _). exfalso.
  specialize (J [] _ _ _ eq_refl). cbn [e_end e_start p_dist segments2 fst snd] in J. pose proof (dist_ge 2 0 0 0 ltac:(lra)). pose proof tol6_1. lra.
Qed.
