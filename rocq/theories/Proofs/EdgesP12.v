(** Shared section of two overlapping segments of one line. *)
From Verif.Model Require Import Base RBase Vec Frame BBox Geometry Curves Edges.
From Verif.Spec Require Import VecSpec CurvesSpec PlaneSpec BBoxSpec EdgesSpec.
From Verif.Proofs Require Import VecP LineP CurvesP BBoxP GeometryP EdgesP EdgesP3 EdgesP4 EdgesP5 EdgesP7 EdgesP8 EdgesP11.
From Coq Require Import List Lra Lia Psatz.
Import ListNotations.
Open Scope R_scope.

Lemma on_rev a b p : on_segment2 (a, b) p <-> on_segment2 (b, a) p.
Proof.
  assert (G : forall a b, on_segment2 (a, b) p -> on_segment2 (b, a) p). { intros c d (t & T & ->). exists (1 - t). split; [lra|]. unfold at_param2. destruct c, d. vec; v_eq; ring. }
  split; apply G.
Qed.
Lemma near_rev a b p tol : near_segment2 (a, b) p tol <-> near_segment2 (b, a) p tol.
Proof. split; intros (q & Q & D); exists q; (split; [apply on_rev|]; auto). Qed.
Lemma mid_seg a b u v : sg2_middle (seg2 a b u, seg2 a b v) = seg2 a b ((u + v) / 2).
Proof. unfold sg2_middle, seg2. cbn [fst snd]. vec; v_eq; field. Qed.
Lemma dir_seg a b u v : sub2 (seg2 a b v) (seg2 a b u) = mul2 (sub2 b a) (v - u).
Proof. unfold seg2. vec; v_eq; ring. Qed.
Lemma dot_scale_r u k : dot2 u (mul2 u k) = k * dot2 u u.
Proof. vec. ring. Qed.
Ltac fin u v := unfold Rmax, Rmin in *; destruct (Rle_dec u v); subst;
  repeat match goal with H : _ = _ \/ _ |- _ => destruct H as [H|[[]|[]]]; [subst|..]; try lra end; lra.
Section Over.
Variables (a b : vec2) (tol : R).
Let len := point_distance2 b a.
Let P := seg2 a b.
Hypothesis NE : a <> b.
Hypothesis T : 0 <= tol.
(** points of a segment of the line *)
Lemma near_uv u v k : near_segment2 (P u, P v) (P k) tol <-> (Rmin u v - k) * len <= tol /\ (k - Rmax u v) * len <= tol.
Proof.
  destruct (Rle_dec u v) as [L|L].
  - rewrite Rmin_left, Rmax_right by lra. apply near_sub; auto.
  - rewrite near_rev. rewrite Rmin_right, Rmax_left by lra. apply near_sub; auto. lra.
Qed.
Lemma on_uv u v p : on_segment2 (P u, P v) p <-> exists k, Rmin u v <= k <= Rmax u v /\ p = P k.
Proof.
  destruct (Rle_dec u v) as [L|L].
  - rewrite Rmin_left, Rmax_right by lra. apply on_sub2; auto.
  - rewrite on_rev. rewrite Rmin_right, Rmax_left by lra. apply on_sub2; auto. lra.
Qed.
Lemma mid_P u v : sg2_middle (P u, P v) = P ((u + v) / 2).
Proof. apply mid_seg. Qed.
Lemma colinear_P u v : u <> v -> is_colinear_to2 (dir2 (a, b)) (dir2 (P u, P v)) (/ 10 ^ 5) = true.
Proof.
  intros H. destruct (is_colinear_to2 _ _ _) eqn:E; auto. exfalso.
  pose proof (len_pos a b NE) as L. fold len in L.
  apply (proj1 (apart_spec (a, b) (P u, P v) (/ 10 ^ 5) ltac:(lra) NE (P_ne a b NE u v H))) in E. unfold apart in E. cbn [fst snd] in E.
  assert (D : sub2 (P v) (P u) = mul2 (sub2 b a) (v - u)) by apply dir_seg.
  unfold sg2_length in E. cbn [fst snd] in E. unfold point_distance2 in E. rewrite D in E.
  rewrite norm2_scale in E. rewrite dot_scale_r in E.
  rewrite <- norm2_sq, Rabs_mult in E. change (norm2 (sub2 b a)) with len in E. rewrite (Rabs_right (len * len)) in E by nra.
  rewrite Rmax_left in E by lra. pose proof (Rabs_pos (v - u)). assert (0 < Rabs (v - u)) by (apply Rabs_pos_lt; lra). nra.
Qed.
Lemma belongs_uv u v k b' : u <> v -> (b' = true <-> (Rmin u v - k) * len <= tol /\ (k - Rmax u v) * len <= tol) -> sg2_point_belongs (P u, P v) (P k) tol = Ok b'.
Proof.
  intros H B. destruct (sg2_belongs_spec (P u, P v) (P k) tol (P_ne a b NE u v H) T) as (c & E & C). rewrite E. f_equal. rewrite near_uv in C.
  destruct c, b'; auto; [symmetry|]; tauto.
Qed.
Lemma allb u v l b' : u <> v -> (b' = true <-> forall k, In k l -> (Rmin u v - k) * len <= tol /\ (k - Rmax u v) * len <= tol) -> all_belong (P u, P v) (map P l) tol = Ok b'.
Proof.
  intros H B. destruct (all_belong_spec (P u, P v) (map P l) tol (P_ne a b NE u v H) T) as (c & E & C). rewrite E. f_equal.
  assert (C' : c = true <-> forall k, In k l -> (Rmin u v - k) * len <= tol /\ (k - Rmax u v) * len <= tol).
  { rewrite C. split; [intros K k I; apply near_uv, K, in_map, I|]. intros K p I. apply in_map_iff in I as (k & <- & I). apply near_uv, K, I. }
  destruct c, b'; auto; [symmetry|]; tauto.
Qed.
Lemma three_P u v : three_points (P u, P v) = map P [u; (u + v) / 2; v].
Proof. unfold three_points. rewrite mid_P. reflexivity. Qed.
Lemma P0 : P 0 = a. Proof. apply seg2_0. Qed.
Lemma P1 : P 1 = b. Proof. apply seg2_1. Qed.
Lemma ab_P : (a, b) = (P 0, P 1). Proof. rewrite P0, P1. reflexivity. Qed.

Lemma allb01 l b' : (b' = true <-> forall k, In k l -> (Rmin 0 1 - k) * len <= tol /\ (k - Rmax 0 1) * len <= tol) -> all_belong (a, b) (map P l) tol = Ok b'.
Proof. intros H. rewrite ab_P. apply allb; [lra|exact H]. Qed.
Lemma belongs01 k b' : (b' = true <-> (Rmin 0 1 - k) * len <= tol /\ (k - Rmax 0 1) * len <= tol) -> sg2_point_belongs (a, b) (P k) tol = Ok b'.
Proof. intros H. rewrite ab_P. apply belongs_uv; [lra|exact H]. Qed.
Lemma shared_P u v : u <> v -> (forall e f, (e = 0 \/ e = 1) -> (f = u \/ f = v) -> e = f \/ tol < Rabs (e - f) * len) ->
  Rmin u v < 1 -> 0 < Rmax u v ->
  exists i j, i <> j /\ sg2_shared_section (a, b) (P u, P v) tol = Ok [(P i, P j)] /\ Rmin i j = Rmax 0 (Rmin u v) /\ Rmax i j = Rmin 1 (Rmax u v).
Proof.
  intros H CL LO HI. pose proof (len_pos a b NE) as L. fold len in L.
  unfold sg2_shared_section. rewrite colinear_P by auto. cbn [negb].
  assert (CLR : forall e f, e = 0 \/ e = 1 -> f = u \/ f = v -> e = f \/ (f < e /\ tol < (e - f) * len) \/ (e < f /\ tol < (f - e) * len)).
  { intros e f E F. destruct (CL e f E F) as [K|K]; [auto|right]. unfold Rabs in K. destruct (Rcase_abs (e - f)) as [Z|Z]; [right; split; lra|].
    left. split; [|lra]. destruct (Req_dec e f) as [Q|Q]; [rewrite Q in K; replace (f - f) with 0 in K by ring; lra|lra]. }
  pose proof (CLR 0 u ltac:(auto) ltac:(auto)) as C0u. pose proof (CLR 0 v ltac:(auto) ltac:(auto)) as C0v.
  pose proof (CLR 1 u ltac:(auto) ltac:(auto)) as C1u. pose proof (CLR 1 v ltac:(auto) ltac:(auto)) as C1v. clear CLR CL.
  assert (NP : forall x, x <= 0 -> x * len <= tol) by (intros; nra).
  assert (M01 : Rmin 0 1 = 0 /\ Rmax 0 1 = 1) by (rewrite Rmin_left, Rmax_right by lra; auto). destruct M01 as [m0 m1].
  (* some end is on the other segment *)
  assert (G : (do x <- any_belong (a, b) [P u; P v] tol; do y <- (if x then Ok true else any_belong (P u, P v) [a; b] tol); Ok y) = Ok true).
  { destruct (any_belong_spec (a, b) [P u; P v] tol NE T) as (x & -> & X). cbn [bind]. destruct x; [reflexivity|].
    destruct (any_belong_spec (P u, P v) [a; b] tol (P_ne a b NE u v H) T) as (y & -> & Y). cbn [bind]. f_equal. apply Y.
    exists a. split; [left; auto|]. rewrite <- P0. apply near_uv. destruct (Rle_dec (Rmin u v) 0) as [Z|Z].
    - split; apply NP; lra.
    - exfalso. assert (false = true); [|discriminate]. apply X. destruct (Rle_dec u v).
      + exists (P u). split; [left; auto|]. rewrite ab_P. apply near_uv. rewrite m0, m1. rewrite Rmin_left in * by lra. split; apply NP; lra.
      + exists (P v). split; [right; left; auto|]. rewrite ab_P. apply near_uv. rewrite m0, m1. rewrite Rmin_right in * by lra. split; apply NP; lra. }
  cbn [fst snd]. destruct (any_belong (a, b) [P u; P v] tol) as [x|]; cbn [bind] in G |- *; [|discriminate].
  destruct (if x then Ok true else any_belong (P u, P v) [a; b] tol) as [y|]; cbn [bind] in G |- *; [|discriminate]. apply Ok_inj in G. subst y. clear x.
  unfold sg2_generic_shared. rewrite three_P.
  replace (sg2_length (a, b) * (1 / 2)) with (sg2_length (a, b) / 2) by field. rewrite sg2_pat_middle by exact NE. cbn [fst snd].
  assert (MM : [a; sg2_middle (a, b); b] = map P [0; (0 + 1) / 2; 1]). { rewrite ab_P at 1. rewrite mid_P. cbn [map]. rewrite P0, P1. reflexivity. }
  destruct (Rle_dec 0 (Rmin u v)) as [A0|A0], (Rle_dec (Rmax u v) 1) as [A1|A1].
  - (* t inside s *)
    exists u, v. split; auto. split; [|rewrite (Rmax_right 0 (Rmin u v)), (Rmin_right 1 (Rmax u v)) by lra; auto].
    rewrite (allb01 _ true).
    2:{ (split; auto; intros _ k [<-|[<-|[<-|[]]]]; rewrite m0, m1; pose proof (Rmin_l u v); pose proof (Rmin_r u v); pose proof (Rmax_l u v); pose proof (Rmax_r u v); split; apply NP; lra). }
    cbn [bind]. reflexivity.
  - (* 0 <= lo < 1 < hi *)
    rewrite (allb01 _ false).
    2:{ split; [discriminate|]. intros K. exfalso. rewrite m0, m1 in K. pose proof (K u ltac:(cbn; auto)) as K1. pose proof (K v ltac:(cbn; auto)) as K2. fin u v. }
    cbn [bind]. rewrite MM. destruct (Req_dec 0 (Rmin u v)) as [Z|Z].
    + rewrite (allb u v _ true) by (auto; split; auto; intros _ k [<-|[<-|[<-|[]]]]; split; apply NP; lra). cbn [bind].
      exists 0, 1. split; [lra|]. split; [rewrite <- ab_P; auto|]. rewrite m0, m1, (Rmax_right 0 (Rmin u v)), (Rmin_left 1 (Rmax u v)) by lra. auto.
    + rewrite (allb u v _ false); [|auto|].
      2:{ split; [discriminate|]. intros K. exfalso. pose proof (K 0 ltac:(cbn; auto)) as K1. fin u v. }
      cbn [bind]. 
      assert (SPL : forall k, k = Rmin u v -> sg2_split (a, b) (P k) tol = Ok (Some (P 0, P k), Some (P k, P 1))).
      { rewrite ab_P. intros k K. destruct (P_split a b NE 0 1 k tol ltac:(lra) ltac:(lra) T) as [[S _]|[(_ & S & _)|(_ & _ & S)]]; auto; exfalso; fold len in S; fin u v. }
      assert (SH : forall k, k = Rmin u v -> shared_of_split (Some (P 0, P k)) (Some (P k, P 1)) (P u, P v) tol = Ok [(P k, P 1)]).
      { intros k K. unfold shared_of_split. rewrite !three_P. rewrite (allb u v _ false); [|auto|].
        2:{ split; [discriminate|]. intros K'. exfalso. pose proof (K' 0 ltac:(cbn; auto)) as K1. fin u v. }
        cbn [bind]. rewrite (allb u v _ true); [reflexivity|auto|]. split; auto. intros _ k' [<-|[<-|[<-|[]]]]; split; apply NP; lra. }
      exists (Rmin u v), 1. split; [lra|]. split; [|rewrite (Rmin_left (Rmin u v) 1), (Rmax_right (Rmin u v) 1), (Rmax_right 0), (Rmin_left 1 (Rmax u v)) by lra; auto].
      destruct (Rle_dec u v) as [UV|UV].
      * rewrite (belongs01 u true).
        2:{ split; auto. intros _. rewrite m0, m1. rewrite Rmin_left in * by lra. split; apply NP; lra. }
        cbn [bind]. rewrite SPL by (rewrite Rmin_left; lra). cbn [bind fst snd]. rewrite SH by (rewrite Rmin_left; lra). rewrite Rmin_left by lra. reflexivity.
      * rewrite (belongs01 u false).
        2:{ split; [discriminate|]. intros K. exfalso. rewrite m0, m1 in K. rewrite Rmax_left in * by lra. lra. }
        cbn [bind]. rewrite (belongs01 v true).
        2:{ split; auto. intros _. rewrite m0, m1. rewrite Rmin_right in * by lra. split; apply NP; lra. }
        cbn [bind]. rewrite SPL by (rewrite Rmin_right; lra). cbn [bind fst snd]. rewrite SH by (rewrite Rmin_right; lra). rewrite Rmin_right by lra. reflexivity.
  - (* lo < 0 < hi <= 1 *)
    rewrite (allb01 _ false).
    2:{ split; [discriminate|]. intros K. exfalso. rewrite m0, m1 in K. pose proof (K u ltac:(cbn; auto)) as K1. pose proof (K v ltac:(cbn; auto)) as K2. fin u v. }
    cbn [bind]. rewrite MM. destruct (Req_dec 1 (Rmax u v)) as [Z|Z].
    + rewrite (allb u v _ true) by (auto; split; auto; intros _ k [<-|[<-|[<-|[]]]]; split; apply NP; lra). cbn [bind].
      exists 0, 1. split; [lra|]. split; [rewrite <- ab_P; auto|]. rewrite m0, m1, (Rmax_left 0 (Rmin u v)), (Rmin_left 1 (Rmax u v)) by lra. auto.
    + rewrite (allb u v _ false); [|auto|].
      2:{ split; [discriminate|]. intros K. exfalso. pose proof (K 1 ltac:(cbn; auto)) as K1. fin u v. }
      cbn [bind]. 
      assert (SPL : forall k, k = Rmax u v -> sg2_split (a, b) (P k) tol = Ok (Some (P 0, P k), Some (P k, P 1))).
      { rewrite ab_P. intros k K. destruct (P_split a b NE 0 1 k tol ltac:(lra) ltac:(lra) T) as [[S _]|[(_ & S & _)|(_ & _ & S)]]; auto; exfalso; fold len in S; fin u v. }
      assert (SH : forall k, k = Rmax u v -> shared_of_split (Some (P 0, P k)) (Some (P k, P 1)) (P u, P v) tol = Ok [(P 0, P k)]).
      { intros k K. unfold shared_of_split. rewrite !three_P. rewrite (allb u v _ true); [reflexivity|auto|]. split; auto. intros _ k' [<-|[<-|[<-|[]]]]; split; apply NP; lra. }
      exists 0, (Rmax u v). split; [lra|]. split; [|rewrite (Rmin_left 0), (Rmax_right 0 (Rmax u v)), (Rmax_left 0 (Rmin u v)), (Rmin_right 1 (Rmax u v)) by lra; auto].
      destruct (Rle_dec u v) as [UV|UV].
      * rewrite (belongs01 u false).
        2:{ split; [discriminate|]. intros K. exfalso. rewrite m0, m1 in K. rewrite Rmin_left in * by lra. lra. }
        cbn [bind]. rewrite (belongs01 v true).
        2:{ split; auto. intros _. rewrite m0, m1. rewrite Rmax_right in * by lra. split; apply NP; lra. }
        cbn [bind]. rewrite SPL by (rewrite Rmax_right; lra). cbn [bind fst snd]. rewrite SH by (rewrite Rmax_right; lra). rewrite Rmax_right by lra. reflexivity.
      * rewrite (belongs01 u true).
        2:{ split; auto. intros _. rewrite m0, m1. rewrite Rmax_left in * by lra. split; apply NP; lra. }
        cbn [bind]. rewrite SPL by (rewrite Rmax_left; lra). cbn [bind fst snd]. rewrite SH by (rewrite Rmax_left; lra). rewrite Rmax_left by lra. reflexivity.
  - (* lo < 0, 1 < hi *)
    rewrite (allb01 _ false).
    2:{ split; [discriminate|]. intros K. exfalso. rewrite m0, m1 in K. pose proof (K u ltac:(cbn; auto)) as K1. pose proof (K v ltac:(cbn; auto)) as K2. fin u v. }
    cbn [bind]. rewrite MM. rewrite (allb u v _ true) by (auto; split; auto; intros _ k [<-|[<-|[<-|[]]]]; split; apply NP; lra). cbn [bind].
    exists 0, 1. split; [lra|]. split; [rewrite <- ab_P; auto|]. rewrite m0, m1, (Rmax_left 0 (Rmin u v)), (Rmin_left 1 (Rmax u v)) by lra. auto.
Qed.
End Over.
Lemma shared_complete s t tol : proper2 s -> proper2 t -> 0 <= tol ->
  (exists p q, p <> q /\ on_segment2 s p /\ on_segment2 s q /\ on_segment2 t p /\ on_segment2 t q) ->
  (forall e f, In e [fst s; snd s] -> In f [fst t; snd t] -> e = f \/ tol < point_distance2 e f) ->
  exists r, sg2_shared_section s t tol = Ok [r] /\ forall p, on_segment2 r p <-> on_segment2 s p /\ on_segment2 t p.
Proof.
  intros Hs Ht T (p & q & NE & (i & I & Pi) & (j & J & Qj) & (m & M & Pm) & (n & N & Qn)) CL. destruct s as [a b], t as [c d].
  change (at_param2 (a, b)) with (seg2 a b) in *. change (at_param2 (c, d)) with (seg2 c d) in *. unfold proper2 in *. cbn [fst snd] in *.
  assert (mn : n - m <> 0). { intros K. apply NE. rewrite Pm, Qn. replace n with m by lra. reflexivity. }
  set (w := (j - i) / (n - m)). assert (W : sub2 d c = mul2 (sub2 b a) w).
  { rewrite Pi in Pm. rewrite Qj in Qn. pose proof (f_equal x2 Pm) as X1. pose proof (f_equal y2 Pm) as X2. pose proof (f_equal x2 Qn) as Y1. pose proof (f_equal y2 Qn) as Y2.
    clear - X1 X2 Y1 Y2 mn. unfold seg2, add2, mul2, sub2 in *. cbn [x2 y2] in *. unfold w. apply vec2_ext; cbn [x2 y2].
    - apply Rmult_eq_reg_r with (n - m); auto. transitivity ((x2 b - x2 a) * (j - i)); [|field; auto]. lra.
    - apply Rmult_eq_reg_r with (n - m); auto. transitivity ((y2 b - y2 a) * (j - i)); [|field; auto]. lra. }
  assert (C : c = seg2 a b (i - m * w)).
  { rewrite Pi in Pm. unfold seg2 in Pm. rewrite W in Pm. pose proof (f_equal x2 Pm) as X1. pose proof (f_equal y2 Pm) as X2. clear - X1 X2. unfold seg2, add2, mul2, sub2 in *. cbn [x2 y2] in *. apply vec2_ext; cbn [x2 y2]; lra. }
  assert (D : d = seg2 a b (i - m * w + w)).
  { pose proof (f_equal x2 W) as X1. pose proof (f_equal y2 W) as X2. rewrite C in X1 at 1. rewrite C in X2 at 1. clear - X1 X2. unfold seg2, add2, mul2, sub2 in *. cbn [x2 y2] in *. apply vec2_ext; cbn [x2 y2]; lra. }
  set (u := i - m * w) in *. set (v := u + w) in *. assert (UV : u <> v). { intros K. apply Ht. rewrite C, D. f_equal. exact K. }
  assert (IU : i = u + m * w) by (unfold u; ring). assert (JU : j = u + n * w) by (unfold u, w; field; auto).
  assert (ij : i <> j). { intros K. apply NE. rewrite Pi, Qj, K. reflexivity. }
  clearbody u w. rewrite C, D in CL |- *. clear C D W Pm Qn Pi Qj c d Ht.
  assert (LOHI : Rmin u v < 1 /\ 0 < Rmax u v). { unfold Rmin, Rmax, v in *. destruct (Rle_dec u (u + w)); split; nra. } destruct LOHI as [LO HI].
  assert (CL' : forall e f, e = 0 \/ e = 1 -> f = u \/ f = v -> e = f \/ tol < Rabs (e - f) * point_distance2 b a).
  { intros e f E F. rewrite <- seg2_dist. destruct (CL (seg2 a b e) (seg2 a b f)) as [K|K]; auto.
    - destruct E as [-> | ->]; [rewrite seg2_0|rewrite seg2_1]; cbn; auto.
    - destruct F as [-> | ->]; cbn; auto.
    - left. destruct (Req_dec e f) as [Z|Z]; auto. exfalso. apply (P_ne a b Hs e f Z). exact K. }
  destruct (shared_P a b tol Hs T u v UV CL' LO HI) as (x & y & XY & E & MI & MA). exists (seg2 a b x, seg2 a b y). split; [exact E|].
  intros r. rewrite !on_uv. rewrite MI, MA. replace (a, b) with (seg2 a b 0, seg2 a b 1) by (rewrite seg2_0, seg2_1; reflexivity). rewrite on_uv.
  rewrite (Rmin_left 0 1), (Rmax_right 0 1) by lra. split.
  - intros (k & K & ->). pose proof (Rmax_l 0 (Rmin u v)). pose proof (Rmax_r 0 (Rmin u v)). pose proof (Rmin_l 1 (Rmax u v)). pose proof (Rmin_r 1 (Rmax u v)). split; exists k; (split; [lra|auto]).
  - intros [(k & K & ->) (k' & K' & E')]. exists k. split; auto. assert (k = k') by (destruct (Req_dec k k'); auto; exfalso; apply (P_ne a b Hs k k'); auto). subst k'.
    split; [apply Rmax_lub|apply Rmin_glb]; lra.
Qed.
(** two segments that come close without an end of one being on the other: an exception *)
Definition nw1 : sg2 := (V2 0 0, V2 1 0).
Definition nw2 : sg2 := (V2 (1 / 2) (- (1 / 500)), V2 (3 / 2) (1 / 500)).
Lemma coord_dist p q : Rabs (x2 p - x2 q) <= point_distance2 p q /\ Rabs (y2 p - y2 q) <= point_distance2 p q.
Proof.
  unfold point_distance2, norm2. split; (rewrite <- sqrt_Rsqr_abs; apply sqrt_le_1_alt; unfold Rsqr, dot2, sub2; cbn [x2 y2]).
  - pose proof (Rle_0_sqr (y2 p - y2 q)) as K. unfold Rsqr in K. lra.
  - pose proof (Rle_0_sqr (x2 p - x2 q)) as K. unfold Rsqr in K. lra.
Qed.
Lemma shared_raises : exists s t, proper2 s /\ proper2 t /\ sg2_shared_section s t (/ 10 ^ 6) = Err NotImplementedError.
Proof.
  exists nw1, nw2. assert (H1 : proper2 nw1) by (intros H; pose proof (f_equal x2 H) as X; cbn in X; lra).
  assert (H2 : proper2 nw2) by (intros H; pose proof (f_equal x2 H) as X; cbn in X; lra). split; auto. split; auto.
  assert (T : 0 <= / 10 ^ 6) by lra.
  assert (FS : forall p, 1 / 1000 <= Rabs (y2 p) -> ~ near_segment2 nw1 p (/ 10 ^ 6)).
  { intros p K (q & (u & U & ->) & D). destruct (coord_dist p (at_param2 nw1 u)) as [_ C]. replace (y2 (at_param2 nw1 u)) with 0 in C by (unfold nw1, at_param2; vec; ring). rewrite Rminus_0_r in C. lra. }
  assert (FT : ~ near_segment2 nw2 (V2 0 0) (/ 10 ^ 6)).
  { intros (q & (u & U & ->) & D). destruct (coord_dist (V2 0 0) (at_param2 nw2 u)) as [C _]. replace (x2 (at_param2 nw2 u)) with (1 / 2 + u) in C by (unfold nw2, at_param2; vec; field).
    cbn [x2] in C. rewrite Rabs_left in C by lra. lra. }
  assert (ON : near_segment2 nw2 (V2 1 0) (/ 10 ^ 6)).
  { apply on_near2; [lra|]. exists (1 / 2). split; [lra|]. unfold nw2, at_param2. vec; v_eq; field. }
  assert (Y1 : 1 / 1000 <= Rabs (y2 (fst nw2))) by (cbn; rewrite Rabs_left by lra; lra).
  assert (Y2 : 1 / 1000 <= Rabs (y2 (snd nw2))) by (cbn; rewrite Rabs_right by lra; lra).
  unfold sg2_shared_section.
  assert (CO : is_colinear_to2 (dir2 nw1) (dir2 nw2) (/ 10 ^ 5) = true).
  { destruct (is_colinear_to2 _ _ _) eqn:E; auto. exfalso. apply (proj1 (apart_spec nw1 nw2 (/ 10 ^ 5) ltac:(lra) H1 H2)) in E. unfold apart in E.
    replace (sg2_length nw1) with 1 in E by (symmetry; unfold sg2_length, point_distance2, norm2, nw1; apply sqrt_of_sq; vec; lra).
    assert (S : sg2_length nw2 <= 1 + 9 / 1000000). { unfold sg2_length, point_distance2, norm2, nw2. rewrite <- (sqrt_square (1 + 9 / 1000000)) by lra. apply sqrt_le_1_alt. vec. lra. }
    replace (dot2 _ _) with 1 in E by (unfold nw1, nw2; vec; field). rewrite Rabs_R1, Rmax_left in E by lra. lra. }
  rewrite CO. cbn [negb].
  destruct (any_belong_spec nw1 [fst nw2; snd nw2] (/ 10 ^ 6) H1 T) as (x & -> & _). cbn [bind].
  assert (G : (if x then Ok true else any_belong nw2 [fst nw1; snd nw1] (/ 10 ^ 6)) = Ok true).
  { destruct x; auto. destruct (any_belong_spec nw2 [fst nw1; snd nw1] (/ 10 ^ 6) H2 T) as (y & -> & Y). f_equal. apply Y. exists (snd nw1). split; [cbn; auto|exact ON]. }
  rewrite G. cbn [bind]. unfold sg2_generic_shared.
  destruct (all_belong_spec nw1 (three_points nw2) (/ 10 ^ 6) H1 T) as (b & -> & B). destruct b.
  { exfalso. apply (FS (fst nw2) Y1), B; cbn; auto. }
  cbn [bind]. replace (sg2_length nw1 * (1 / 2)) with (sg2_length nw1 / 2) by field. rewrite sg2_pat_middle by exact H1. cbn [bind].
  destruct (all_belong_spec nw2 [fst nw1; sg2_middle nw1; snd nw1] (/ 10 ^ 6) H2 T) as (b & -> & B'). destruct b.
  { exfalso. apply FT, B'; cbn; auto. }
  cbn [bind]. rewrite sg2_belongs_no by auto. cbn [bind]. rewrite sg2_belongs_no by auto. reflexivity.
Qed.
