(** Model of /repo/volmdlr/nurbs/core.pyx, nurbs/operations.py (curve part), nurbs/helpers.pyx and of the
    parts of BSplineCurve (/repo/volmdlr/edges.py l.826-1260) that call them.
    Simplifications: doubles are reals; arrays are lists; the compiled code switches bounds checks off, so
    reads outside an array are undefined there and give 0 here (the theorems assume arrays of the right
    length); the f"{x:.18f}" roundings and round_c(x, 18) are the identity. *)
From Verif.Model Require Import RBase.
Open Scope R_scope.

Notation point := (list R) (only parsing).

(** knot_vector[i] (memoryview access, bounds checks off). *)
Definition kn (U : list R) (i : nat) : R := nth i U 0.

(** core.pyx l.86-91 find_span_linear_c (wrapped by find_span_linear l.94-110): the while loop, with the
    number of iterations still possible as fuel. *)
Fixpoint span_loop (fuel : nat) (U : list R) (num : nat) (u : R) (span : nat) : nat :=
  match fuel with
  | O => span
  | S f => if (span <? num)%nat && Rleb (kn U span) u then span_loop f U num u (S span) else span
  end.
Definition find_span_linear (degree : nat) (U : list R) (num : nat) (u : R) : nat :=
  (span_loop num U num u (degree + 1) - 1)%nat.

(** core.pyx l.116-139 find_spans. *)
Definition find_spans (degree : nat) (U : list R) (num : nat) (us : list R) : list nat :=
  map (find_span_linear degree U num) us.

(** core.pyx l.31-80 find_span_binsearch. [tol] is the keyword argument, 10e-6 by default. The rounding of
    l.65 (mid = round(int((low+high)/2) + tol)) returns the same integer for |tol| < 1/2 and is omitted.
    The while loop l.68-73 need not terminate: fuel, with [OutOfFuel] when it is exhausted. *)
Fixpoint bin_loop (fuel : nat) (U : list R) (u : R) (low high mid : nat) : res nat :=
  if Rltb u (kn U mid) || Rleb (kn U (mid + 1)) u then
    match fuel with
    | O => Err OutOfFuel
    | S f =>
        let high' := if Rltb u (kn U mid) then mid else high in
        let low' := if Rltb u (kn U mid) then low else mid in
        bin_loop f U u low' high' (Nat.div2 (low' + high'))
    end
  else Ok mid.
Definition find_span_binsearch (fuel : nat) (degree : nat) (U : list R) (num : nat) (u tol : R) : res nat :=
  let n := (num - 1)%nat in
  if Rleb (Rabs (kn U (n + 1) - u)) tol then Ok n
  else bin_loop fuel U u degree num (Nat.div2 (degree + num)).

(** core.pyx l.142-165 find_multiplicity. *)
Definition find_multiplicity_tol (u : R) (U : list R) (tol : R) : nat :=
  length (filter (fun k => Rleb (Rabs (u - k)) tol) U).
Definition eps15 : R := / 10 ^ 15.
Definition find_multiplicity (u : R) (U : list R) : nat := find_multiplicity_tol u U eps15.

(** core.pyx l.172-196 basis_function_c. [left j] and [right j] are the two work arrays; the inner loop over r
    rewrites the first j entries of N in place and then sets N[j] = saved: here the row is rebuilt, entries of
    N beyond j (still 0 and never read) are left out. *)
Definition bleft (U : list R) (span : nat) (u : R) (j : nat) : R := u - kn U (span + 1 - j).
Definition bright (U : list R) (span : nat) (u : R) (j : nat) : R := kn U (span + j) - u.
Fixpoint basis_inner (U : list R) (span : nat) (u : R) (j r : nat) (saved : R) (N : list R) : list R :=
  match N with
  | [] => [saved]
  | n :: rest =>
      let temp := n / (bright U span u (r + 1) + bleft U span u (j - r)) in
      (saved + bright U span u (r + 1) * temp)
        :: basis_inner U span u j (r + 1) (bleft U span u (j - r) * temp) rest
  end.
Fixpoint basis_function (degree : nat) (U : list R) (span : nat) (u : R) : list R :=
  match degree with
  | O => [1]
  | S d => basis_inner U span u (S d) 0 0 (basis_function d U span u)
  end.

(** core.pyx l.296-327 basis_function_all: N[j][i] = j-th of the i+1 values of degree i (None elsewhere). *)
Definition basis_function_all (degree : nat) (U : list R) (span : nat) (u : R) : list (list (option R)) :=
  map (fun j => map (fun i => nth_error (basis_function i U span u) j) (seq 0 (degree + 1)))
      (seq 0 (degree + 1)).

(** core.pyx l.199-242 basis_function_one_c and l.245-263 basis_function_one: the value of one basis function.
    The buffer N (length degree + span + 1, only its first degree + 1 entries matter) is rebuilt at each k. *)
Definition one_init (U : list R) (degree i : nat) (u : R) : list R :=
  map (fun j => if Rleb (kn U (i + j)) u && Rltb u (kn U (i + j + 1)) then 1 else 0) (seq 0 (degree + 1)).
Fixpoint one_inner (U : list R) (i k : nat) (u : R) (j : nat) (saved : R) (N1 : list R) : list R :=
  match N1 with
  | [] => []
  | n :: rest =>
      let ul := kn U (i + j + 1) in
      let ur := kn U (i + j + k + 1) in
      if Reqb n 0 then saved :: one_inner U i k u (j + 1) 0 rest
      else
        let temp := n / (ur - ul) in
        (saved + (ur - u) * temp) :: one_inner U i k u (j + 1) ((u - ul) * temp) rest
  end.
Definition one_step (U : list R) (i : nat) (u : R) (k : nat) (N : list R) : list R :=
  let saved := if Reqb (nth 0 N 0) 0 then 0
               else ((u - kn U i) * nth 0 N 0) / (kn U (i + k) - kn U i) in
  one_inner U i k u 0 saved (tl N).
Fixpoint one_table (U : list R) (i : nat) (u : R) (k : nat) (N : list R) : list R :=
  match k with O => N | S k' => one_step U i u k (one_table U i u k' N) end.
Definition basis_function_one (degree : nat) (U : list R) (i : nat) (u : R) : R :=
  let m := length U in
  if ((i =? 0)%nat && Reqb u (kn U 0)) || ((i =? m - degree - 2)%nat && Reqb u (kn U (m - 1))) then 1
  else if Rltb u (kn U i) || Rleb (kn U (i + degree + 1)) u then 0
  else nth 0 (one_table U i u degree (one_init U degree i u)) 0.

(** Points: numpy component-wise arithmetic. *)
Definition padd (a b : point) : point := map (fun xy => fst xy + snd xy) (combine a b).
Definition pscale (c : R) (a : point) : point := map (Rmult c) a.
Definition pzero (dim : nat) : point := repeat 0 dim.
Definition cpt (P : list point) (i : nat) : point := nth i P [].

(** core.pyx l.611-642 evaluate_curve_c: one evaluated point, coordinate by coordinate
    (crvpt[j] += basis[i] * ctrlpts[span - degree + i][j]). *)
Definition sum_list (l : list R) : R := fold_left Rplus l 0.
Definition eval_coord (degree : nat) (basis : list R) (P : list point) (span j : nat) : R :=
  sum_list (map (fun i => nth i basis 0 * nth j (cpt P (span - degree + i)) 0) (seq 0 (degree + 1))).
Definition eval_point (degree : nat) (U : list R) (P : list point) (dim : nat) (u : R) : point :=
  let span := find_span_linear degree U (length P) u in
  let basis := basis_function degree U span u in
  map (eval_coord degree basis P span) (seq 0 dim).

(** helpers.pyx l.35-66 linspace. [num] - 1 = 0 with distinct ends divides by zero (cython: ZeroDivisionError is
    not raised in a cdef function returning a C++ vector without except: the value is unspecified); the model
    returns the real x * delta / 0. *)
Definition eps_lin : R := 10 * / 10 ^ 8.
Definition linspace (start stop : R) (num : nat) : list R :=
  if Rleb (Rabs (start - stop)) eps_lin then [start]
  else map (fun x => start + INR x * (stop - start) / INR (num - 1)) (seq 0 num).

(** core.pyx l.611-642 evaluate_curve_c. *)
Definition evaluate_curve_c (degree : nat) (U : list R) (P : list point) (sample dim : nat) (start stop : R)
  : list point :=
  map (eval_point degree U P dim) (linspace start stop sample).

(** core.pyx l.692-720 evaluate_curve_rational: homogeneous evaluation, then division by the weight. *)
Definition project (dim : nat) (q : point) : point :=
  map (fun j => nth j q 0 / nth dim q 0) (seq 0 dim).
Definition evaluate_curve_rational (degree : nat) (U : list R) (Pw : list point) (sample dim : nat) (start stop : R)
  : list point :=
  map (project dim) (evaluate_curve_c degree U Pw sample (dim + 1) start stop).

(** core.pyx l.562-592 build_coeff_matrix: row i has basis_func[j - (span - degree)] in columns span-degree..span. *)
Definition coeff_row (degree : nat) (U : list R) (num : nat) (u : R) : list R :=
  let span := find_span_linear degree U num u in
  let basis := basis_function degree U span u in
  map (fun j => if ((span - degree <=? j) && (j <=? span))%nat then nth (j - (span - degree)) basis 0 else 0)
      (seq 0 num).
Definition build_coeff_matrix (degree : nat) (U : list R) (params : list R) (num : nat) : list (list R) :=
  map (fun i => coeff_row degree U num (nth i params 0)) (seq 0 num).

(** operations.py l.75-93 knot_insertion_alpha. *)
Definition knot_insertion_alpha (u : R) (U : list R) (span idx leg : nat) : R :=
  (u - kn U (leg + idx)) / (kn U (idx + span + 1) - kn U (leg + idx)).

(** Python list primitives with non-negative indices: l[i] = x and l[a:b] = src. *)
Fixpoint set_nth {A} (l : list A) (i : nat) (x : A) : list A :=
  match l, i with
  | [], _ => []
  | _ :: t, O => x :: t
  | h :: t, S i' => h :: set_nth t i' x
  end.
Definition slice_assign {A} (l : list A) (a b : nat) (src : list A) : list A :=
  firstn a l ++ src ++ skipn (Nat.max a b) l.
Definition slice {A} (l : list A) (a b : nat) : list A := firstn (b - a) (skipn a l).

(** operations.py l.11-73 knot_insertion, statement by statement. Indices below are non-negative when
    degree <= span, multiplicity <= degree and num <= degree - multiplicity. *)
(** l.57-61: the inner loop over i, updating temp in place. *)
Definition insertion_row (u : R) (U : list R) (span j leg p s : nat) (temp : list point) : list point :=
  fold_left
    (fun t i => let alpha := knot_insertion_alpha u U span i leg in
                set_nth t i (padd (pscale alpha (nth (i + 1) t [])) (pscale (1 - alpha) (nth i t []))))
    (seq 0 (p + 1 - j - s)) temp.
(** l.55-64: the loop over j in range(1, num + 1); state (ctrlpts_new, temp). *)
Definition insertion_round (u : R) (U : list R) (span num p s : nat) (st : list point * list point) (j : nat)
  : list point * list point :=
  let '(new, temp) := st in
  let leg := (span - p + j)%nat in
  let temp' := insertion_row u U span j leg p s temp in
  let new1 := set_nth new leg (nth 0 temp' []) in
  let new2 := set_nth new1 (span + num - j - s) (nth (p - j - s) temp' []) in
  (new2, temp').
Definition knot_insertion (p : nat) (U : list R) (P : list point) (u : R) (num s span : nat) : list point :=
  let dim := length (cpt P 0) in
  let new0 := repeat (pzero dim) (length P + num) in
  let temp0 := repeat (pzero dim) (p + 1) in
  let new1 := slice_assign new0 0 (span - p + 1) (firstn (span - p + 1) P) in
  let new2 := slice_assign new1 (span - s + num) (length new1) (skipn (span - s) P) in
  let temp1 := fold_left (fun t i => set_nth t i (cpt P (span - p + i))) (seq 0 (p - s + 1)) temp0 in
  let '(new3, temp) := fold_left (insertion_round u U span num p s) (seq 1 num) (new2, temp1) in
  let leg := (span - p + num)%nat in
  slice_assign new3 (leg + 1) (span - s) (slice temp 1 (span - s - leg + 1)).

(** operations.py l.96-125 knot_insertion_kv. *)
Definition knot_insertion_kv (U : list R) (u : R) (span num : nat) : list R :=
  let kv0 := repeat 0 (length U + num) in
  let kv1 := fold_left (fun kv i => set_nth kv i (kn U i)) (seq 0 (span + 1)) kv0 in
  let kv2 := fold_left (fun kv i => set_nth kv (span + i) u) (seq 1 num) kv1 in
  fold_left (fun kv i => set_nth kv (i + num) (kn U i)) (seq (span + 1) (length U - (span + 1))) kv2.

(** operations.py l.730-737 get_knots_and_multiplicities: np.unique sorts and removes repetitions, then
    find_multiplicity counts. *)
Fixpoint insert_sorted_unique (x : R) (l : list R) : list R :=
  match l with
  | [] => [x]
  | y :: t => if Rltb x y then x :: l else if Reqb x y then l else y :: insert_sorted_unique x t
  end.
Definition np_unique (l : list R) : list R := fold_right insert_sorted_unique [] l.
Definition get_knots_and_multiplicities (U : list R) : list R * list nat :=
  let knots := np_unique U in (knots, map (fun k => find_multiplicity k U) knots).

(** helpers.pyx l.127-140 standardize_knot_vector; an empty list has no [0] (IndexError), equal ends divide by
    zero. *)
Definition standardize_knot_vector (U : list R) : res (list R) :=
  match U with
  | [] => Err IndexError
  | first :: _ =>
      let d := last U 0 - first in
      if Reqb d 0 then Err ZeroDivisionError else Ok (map (fun k => (k - first) / d) U)
  end.

(** helpers.pyx l.70-124 generate_knot_vector. num_segments is an int: the linspace size num_segments + 2 is
    non-negative only when degree <= num_ctrlpts + 1; a negative vector size raises std::bad_alloc/length_error,
    modelled as OverflowError. *)
Definition generate_knot_vector (degree num : nat) (clamped : bool) : res (list R) :=
  if ((degree =? 0) || (num =? 0))%nat then Err ValueError
  else if clamped then
    if (num + 1 <? degree)%nat then Err OverflowError
    else Ok (repeat 0 degree ++ linspace 0 1 (num + 1 - degree) ++ repeat 1 degree)
  else Ok (linspace 0 1 (degree + num + 1)).

(** helpers.pyx l.143-160 insert_knots_and_mutiplicity: (new_knots, new_multiplicities, i). *)
Fixpoint insert_km_loop (knots : list R) (mults : list nat) (u : R) (num : nat) (ks : list R) (ms : list nat) (i : nat)
  : list R * list nat * nat :=
  match knots, mults with
  | k :: kr, m :: mr =>
      if Rltb u k then (ks ++ u :: knots, ms ++ num :: mults, i)
      else match kr with
           | [] => (ks ++ [k], ms ++ [m], i)
           | _ => insert_km_loop kr mr u num (ks ++ [k]) (ms ++ [m]) (S i)
           end
  | _, _ => (ks, ms, i)
  end.
Definition insert_knots_and_mutiplicity (knots : list R) (mults : list nat) (u : R) (num : nat) :=
  insert_km_loop knots mults u num [] [] 0.

(** helpers.pyx l.12-26 binomial_coefficient. *)
Definition binomial_coefficient (k i : nat) : R :=
  if (k <? i)%nat then 0
  else if ((i =? 0) || (i =? k))%nat then 1
  else fold_left (fun r j => r * (INR (k - j) / INR (i - j))) (seq 0 i) 1.

(** edges.py l.852-884 BSplineCurve.__init__ (the fields the evaluation uses). The knots are standardised to
    [0, 1]. Rational when some weight is non zero (numpy any()). *)
Record bcurve := mkbcurve {
  bc_degree : nat;
  bc_ctrlpts : list point;
  bc_mults : list nat;
  bc_knots : list R;
  bc_weights : option (list R);
}.
Definition any_nonzero (l : list R) : bool := existsb (fun w => negb (Reqb w 0)) l.
Definition bcurve_new (degree : nat) (P : list point) (mults : list nat) (knots : list R) (weights : option (list R))
  : res bcurve :=
  match standardize_knot_vector knots with
  | Err e => Err e
  | Ok ks =>
      Ok (mkbcurve degree P mults ks
            (match weights with
             | Some w => if any_nonzero w then Some w else None
             | None => None
             end))
  end.
(** edges.py l.920-925 knotvector: np.repeat(knots, multiplicities). *)
Definition expand_knots (knots : list R) (mults : list nat) : list R :=
  flat_map (fun km => repeat (fst km) (snd km)) (combine knots mults).
Definition knotvector (c : bcurve) : list R := expand_knots (bc_knots c) (bc_mults c).
(** edges.py l.867: ctrlptsw = hstack(ctrlpts * weights, weights). *)
Definition ctrlptsw (P : list point) (w : list R) : list point :=
  map (fun pw => pscale (snd pw) (fst pw) ++ [snd pw]) (combine P w).
(** edges.py l.1020-1029 domain: knotvector[degree], knotvector[-(degree + 1)]. *)
Definition domain (c : bcurve) : R * R :=
  (kn (knotvector c) (bc_degree c), kn (knotvector c) (length (knotvector c) - (bc_degree c + 1))).
(** Dimension of the points (2 or 3), read from the class name in the code. *)
Definition cdim (c : bcurve) : nat := length (cpt (bc_ctrlpts c) 0).

(** edges.py l.1124-1134 evaluate_single: evaluate_curve(data, u, u)[0]; linspace(u, u) = [u]. *)
Definition evaluate_single (c : bcurve) (u : R) : point :=
  nth 0 (match bc_weights c with
         | Some w => evaluate_curve_rational (bc_degree c) (knotvector c) (ctrlptsw (bc_ctrlpts c) w) 100 (cdim c) u u
         | None => evaluate_curve_c (bc_degree c) (knotvector c) (bc_ctrlpts c) 100 (cdim c) u u
         end) [].

(** edges.py l.1091-1122 evaluate with its default bounds (the domain). *)
Definition evaluate (c : bcurve) (sample : nat) : list point :=
  match bc_weights c with
  | Some w => evaluate_curve_rational (bc_degree c) (knotvector c) (ctrlptsw (bc_ctrlpts c) w) sample (cdim c)
                                      (fst (domain c)) (snd (domain c))
  | None => evaluate_curve_c (bc_degree c) (knotvector c) (bc_ctrlpts c) sample (cdim c)
                             (fst (domain c)) (snd (domain c))
  end.

(** operations.py l.655-674 separate_ctrlpts_weights. *)
Definition separate_ctrlpts_weights (Pw : list point) : list point * list R :=
  (map (fun q => map (fun x => x / last q 0) (removelast q)) Pw, map (fun q => last q 0) Pw).

(** operations.py l.128-188 insert_knot_curve(obj, [u], [num], check_num) for BSplineCurve objects (the Bezier
    branch is modelled below); num is a natural number (negative numbers raise ValueError). *)
Definition insert_knot_curve (c : bcurve) (u : R) (num : nat) (check_num : bool) : res bcurve :=
  match num with
  | O => Ok c
  | _ =>
      let U := knotvector c in
      let s := find_multiplicity u U in
      if check_num && ((Z.of_nat (bc_degree c) - Z.of_nat s) <? Z.of_nat num)%Z then Err ValueError
      else
        let span := find_span_linear (bc_degree c) U (length (bc_ctrlpts c)) u in
        let kv := knot_insertion_kv U u span num in
        let '(pts, weights) :=
          match bc_weights c with
          | Some w =>
              let '(q, w') := separate_ctrlpts_weights
                                (knot_insertion (bc_degree c) U (ctrlptsw (bc_ctrlpts c) w) u num s span) in (q, Some w')
          | None => (knot_insertion (bc_degree c) U (bc_ctrlpts c) u num s span, None)
          end in
        let '(knots, mults) := get_knots_and_multiplicities kv in
        bcurve_new (bc_degree c) pts mults knots weights
  end.

(** operations.py l.720-727 helper_split_knot_vectors. *)
Definition helper_split_knot_vectors (degree : nat) (U : list R) (num : nat) (u : R) : list R * list R :=
  let ks := (find_span_linear degree U num u + 1)%nat in
  (firstn ks U ++ [u], repeat u (degree + 1) ++ skipn ks U).

(** operations.py l.229-251 construct_split_curve (BSplineCurve branch). *)
Definition construct_split_curve (c : bcurve) (kv1 kv2 : list R) (cut : nat) : res (bcurve * bcurve) :=
  let '(k1, m1) := get_knots_and_multiplicities kv1 in
  let '(k2, m2) := get_knots_and_multiplicities kv2 in
  do c1 <- bcurve_new (bc_degree c) (firstn cut (bc_ctrlpts c)) m1 k1
                      (option_map (firstn cut) (bc_weights c));
  do c2 <- bcurve_new (bc_degree c) (skipn (cut - 1) (bc_ctrlpts c)) m2 k2
                      (option_map (skipn (cut - 1)) (bc_weights c));
  Ok (c1, c2).

(** operations.py l.191-226 split_curve. degree - multiplicity is a Python int; a multiplicity above the degree
    gives a negative count and no insertion: natural subtraction does the same up to [cut], which is only
    correct for multiplicity <= degree. *)
Definition split_curve (c : bcurve) (u : R) : res (bcurve * bcurve) :=
  if Reqb u (fst (domain c)) || Reqb u (snd (domain c)) then Err ValueError
  else
    let U := knotvector c in
    let s := find_multiplicity u U in
    let count := (bc_degree c - s)%nat in
    let knot_span := (find_span_linear (bc_degree c) U (length (bc_ctrlpts c)) u - bc_degree c + 1)%nat in
    do t <- insert_knot_curve c u count false;
    let '(kv1, kv2) := helper_split_knot_vectors (bc_degree t) (knotvector t) (length (bc_ctrlpts t)) u in
    construct_split_curve t kv1 kv2 (knot_span + count).

(** edges.py l.1200-1212 get_reverse: the weights are passed on unreversed. *)
Definition get_reverse (c : bcurve) : res bcurve :=
  bcurve_new (bc_degree c) (rev (bc_ctrlpts c)) (rev (bc_mults c)) (rev (bc_knots c)) (bc_weights c).

(** edges.py l.2232-2241 BezierCurve2D.__init__ (same for 3D l.5552): the generated knot vector with
    multiplicities 1. *)
Definition bezier_new (degree : nat) (P : list point) : res bcurve :=
  do kv <- generate_knot_vector degree (length P) true;
  bcurve_new degree P (repeat 1%nat (length kv)) kv None.
(** operations.py l.185-186: insert_knot_curve on a BezierCurve object rebuilds BezierCurve(degree, points). *)
Definition insert_knot_bezier (c : bcurve) (u : R) (num : nat) : res bcurve :=
  let U := knotvector c in
  let s := find_multiplicity u U in
  if ((Z.of_nat (bc_degree c) - Z.of_nat s) <? Z.of_nat num)%Z then Err ValueError
  else
    let span := find_span_linear (bc_degree c) U (length (bc_ctrlpts c)) u in
    bezier_new (bc_degree c) (knot_insertion (bc_degree c) U (bc_ctrlpts c) u num s span).
