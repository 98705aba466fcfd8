(** What the vector, frame and line theorems say: identity matrices, closeness, direct orthonormal bases, points of lines and segments. *)
From Coq Require Import Reals List.
From Verif.Model Require Import RBase Vec Frame.
Open Scope R_scope.

Definition I22 := M22 1 0 0 1.
Definition I33 := M33 1 0 0 0 1 0 0 0 1.
Definition transpose m := M33 (m11 m) (m21 m) (m31 m) (m12 m) (m22 m) (m32 m) (m13 m) (m23 m) (m33 m).
(** Matrix33.vector_multiplication replaces components below this by 0 *)
Definition eps := / 10 ^ 16.
(** exact matrix-vector product *)
Definition mapply m v := V3 (m11 m * x3 v + m12 m * y3 v + m13 m * z3 v) (m21 m * x3 v + m22 m * y3 v + m23 m * z3 v)
     (m31 m * x3 v + m32 m * y3 v + m33 m * z3 v).
(** componentwise closeness *)
Definition near (k : R) (u v : vec3) : Prop := Rabs (x3 u - x3 v) <= k /\ Rabs (y3 u - y3 v) <= k /\ Rabs (z3 u - z3 v) <= k.
(** all entries bounded *)
Definition mbound (K : R) m := Rabs (m11 m) <= K /\ Rabs (m12 m) <= K /\ Rabs (m13 m) <= K /\ Rabs (m21 m) <= K /\ Rabs (m22 m) <= K /\ Rabs (m23 m) <= K /\ Rabs (m31 m) <= K /\ Rabs (m32 m) <= K /\ Rabs (m33 m) <= K.
Definition orthonormal (b : basis3) : Prop :=
  dot3 (bu b) (bu b) = 1 /\ dot3 (bv b) (bv b) = 1 /\ dot3 (bw b) (bw b) = 1 /\
  dot3 (bu b) (bv b) = 0 /\ dot3 (bu b) (bw b) = 0 /\ dot3 (bv b) (bw b) = 0.
(** orthonormal and right-handed *)
Definition direct (b : basis3) : Prop := orthonormal b /\ cross3 (bu b) (bv b) = bw b.
(** the basis vector that plays the role of the axis [main] *)
Definition main_of (main : vec3) (b : basis3) : vec3 :=
  add3 (add3 (mul3 (bu b) (x3 main)) (mul3 (bv b) (y3 main))) (mul3 (bw b) (z3 main)).
Definition sum3 (l : list vec3) : vec3 := fold_right add3 O3D l.
(** lines and segments given by two points *)
Definition on_line2 (l : vec2 * vec2) (p : vec2) : Prop := cross2 (sub2 (snd l) (fst l)) (sub2 p (fst l)) = 0.
Definition at_param2 (l : vec2 * vec2) (t : R) : vec2 := add2 (fst l) (mul2 (sub2 (snd l) (fst l)) t).
Definition on_segment2 (l : vec2 * vec2) (p : vec2) : Prop := exists t, 0 <= t <= 1 /\ p = at_param2 l t.
(** determinant of the two directions: 0 iff parallel *)
Definition den2 (l1 l2 : vec2 * vec2) : R := cross2 (sub2 (snd l1) (fst l1)) (sub2 (snd l2) (fst l2)).
Definition seg2 (p1 p2 : vec2) (t : R) := add2 p1 (mul2 (sub2 p2 p1) t).
Definition seg3 (p1 p2 : vec3) (t : R) := add3 p1 (mul3 (sub3 p2 p1) t).
