(** Model of /repo/volmdlr/nurbs/helpers.pyx l.163-261: Doolittle LU factorisation and triangular solves.
    Matrices are lists of rows of reals; the nested assignments are modelled in order. *)
From Verif.Model Require Import RBase Nurbs.
Open Scope R_scope.

Definition matrix := list (list R).
(** m[i][j] and m[i][j] = x. *)
Definition mget (M : matrix) (i j : nat) : R := nth j (nth i M []) 0.
Definition mset (M : matrix) (i j : nat) (x : R) : matrix := set_nth M i (set_nth (nth i M []) j x).
(** sum([l[i][j] * u[j][k] for j in range(0, m)]). *)
Definition dot_prefix (L U : matrix) (i k m : nat) : R :=
  sum_list (map (fun j => mget L i j * mget U j k) (seq 0 m)).

(** helpers.pyx l.176-189: the body of the loop over k for a given i; state (matrix_l, matrix_u). *)
Definition doolittle_step (A : matrix) (i : nat) (st : matrix * matrix) (k : nat) : matrix * matrix :=
  let '(L, U) := st in
  let U' := mset U i k (mget A i k - dot_prefix L U i k i) in
  if (i =? k)%nat then (mset L i i 1, U')
  else
    let v := mget A k i - dot_prefix L U' k i i in
    (mset L k i (if Reqb (mget U' i i) 0 then 0 else v / mget U' i i), U').
(** helpers.pyx l.163-191 doolittle. *)
Definition zero_matrix (n : nat) : matrix := repeat (repeat 0 n) n.
Definition doolittle (A : matrix) : matrix * matrix :=
  let n := length A in
  fold_left (fun st i => fold_left (doolittle_step A i) (seq i (n - i)) st) (seq 0 n) (zero_matrix n, zero_matrix n).
(** helpers.pyx l.194-217 lu_decomposition. *)
Definition lu_decomposition (A : matrix) : res (matrix * matrix) :=
  if forallb (fun row => (length row =? length A)%nat) A then Ok (doolittle A) else Err ValueError.

(** helpers.pyx l.220-239 forward_substitution: y[i] = (b[i] - sum(l[i][j] * y[j] for j < i)) / l[i][i]; an empty b
    raises IndexError, a zero diagonal ZeroDivisionError. *)
Fixpoint forward_loop (L : matrix) (b : list R) (i todo : nat) (y : list R) : res (list R) :=
  match todo with
  | O => Ok y
  | S t =>
      let v := nth i b 0 - sum_list (map (fun j => mget L i j * nth j y 0) (seq 0 i)) in
      if Reqb (mget L i i) 0 then Err ZeroDivisionError
      else forward_loop L b (S i) t (set_nth y i (v / mget L i i))
  end.
Definition forward_substitution (L : matrix) (b : list R) : res (list R) :=
  match b with [] => Err IndexError | _ => forward_loop L b 0 (length b) (repeat 0 (length b)) end.

(** helpers.pyx l.242-261 backward_substitution: i goes from q-1 down to 0; for i < q-1 the sum runs over
    range(i, q) and so includes the term of x[i], still 0. *)
Fixpoint backward_loop (U : matrix) (y : list R) (q todo : nat) (x : list R) : res (list R) :=
  match todo with
  | O => Ok x
  | S i =>
      let v := nth i y 0 - sum_list (map (fun j => mget U i j * nth j x 0) (seq i (q - i))) in
      if Reqb (mget U i i) 0 then Err ZeroDivisionError
      else backward_loop U y q i (set_nth x i (v / mget U i i))
  end.
Definition backward_substitution (U : matrix) (y : list R) : res (list R) :=
  match y with [] => Err IndexError | _ => backward_loop U y (length y) (length y) (repeat 0 (length y)) end.
