(** What the frame theorems say: points given by coordinates in a frame, Euler angles. *)
From Coq Require Import Reals.
From Verif.Model Require Import RBase Vec Frame.
Open Scope R_scope.

(** the vector, and the point, with given coordinates in a basis and in a frame *)
Definition basis_vector (b : basis3) (v : vec3) : vec3 :=
  add3 (add3 (mul3 (bu b) (x3 v)) (mul3 (bv b) (y3 v))) (mul3 (bw b) (z3 v)).
Definition frame_point (f : frame3) (v : vec3) : vec3 := add3 (basis_vector (fb3 f) v) (org3 f).
(** transfer matrix of the rotations by psi around z, then theta around the new x, then phi around the new z *)
Definition euler_matrix (psi theta phi : R) : mat33 :=
  mmul33 (mmul33 (M33 (cos psi) (- sin psi) 0 (sin psi) (cos psi) 0 0 0 1)
                 (M33 1 0 0 0 (cos theta) (- sin theta) 0 (sin theta) (cos theta)))
         (M33 (cos phi) (- sin phi) 0 (sin phi) (cos phi) 0 0 0 1).
