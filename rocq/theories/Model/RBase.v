(** Real-number vocabulary: Coq's [R] stands for IEEE doubles (float rounding, overflow and NaN are not
    modelled). Comparisons are decided with the classical deciders of the standard library. *)
From Coq Require Export Reals.
From Verif.Model Require Export Base.
Open Scope R_scope.

Definition Rltb (a b : R) : bool := if Rlt_dec a b then true else false.
Definition Rleb (a b : R) : bool := if Rle_dec a b then true else false.
Definition Reqb (a b : R) : bool := if Req_EM_T a b then true else false.

(** math.isclose(a, b, abs_tol=t) with the default rel_tol = 1e-9. *)
Definition isclose (a b t : R) : bool :=
  Rleb (Rabs (a - b)) (Rmax (/ 10 ^ 9 * Rmax (Rabs a) (Rabs b)) t).
