(** The pixels enclosed by the pixels of the edges of a triangle. *)
From Coq Require Import Lra Lia Psatz Classical.
From Verif.Model Require Import RBase Vec BBox Geometry FloodFill Sat Voxelize.
From Verif.Spec Require Import GridSpec SatSpec.
From Verif.Proofs Require Import VecP GeometryP FloodFillP OuterP BBoxP SatP SatP2 SatP3 SatP4 VoxelizeP.
Open Scope R_scope.

Lemma foldM_ok {A S} (f : S -> A -> res S) (Inv : S -> Prop) (le : S -> S -> Prop) (P : A -> S -> Prop) l :
  (forall s, le s s) -> (forall a b c, le a b -> le b c -> le a c) ->
  (forall a s s', P a s -> le s s' -> P a s') ->
  (forall a s, In a l -> Inv s -> exists s', f s a = Ok s' /\ Inv s' /\ le s s' /\ P a s') ->
  forall s, Inv s -> exists s', foldM f l s = Ok s' /\ Inv s' /\ le s s' /\ forall a, In a l -> P a s'.
Proof.
  intros Rf Tr Mono. induction l as [|a l IH]; intros Step s Hs.
  - exists s. cbn. repeat split; auto. intros a [].
  - destruct (Step a s (or_introl eq_refl) Hs) as (s1 & E1 & I1 & L1 & P1).
    destruct (IH (fun b t Hb => Step b t (or_intror Hb)) s1 I1) as (s2 & E2 & I2 & L2 & P2). exists s2. cbn. rewrite E1. cbn. rewrite E2.
    repeat split; auto; [eauto|]. intros b [<-|Hb]; [eauto|auto].
Qed.
(** what the final state contains comes from one of the steps *)
Lemma foldM_from {A S C} (f : S -> A -> res S) (Inv : S -> Prop) (cell : S -> C -> Prop) (Q : A -> C -> Prop) l :
  (forall a s s', In a l -> Inv s -> f s a = Ok s' -> Inv s' /\ forall c, cell s' c -> cell s c \/ Q a c) ->
  forall s s', Inv s -> foldM f l s = Ok s' -> Inv s' /\ forall c, cell s' c -> cell s c \/ exists a, In a l /\ Q a c.
Proof.
  induction l as [|a l IH]; intros Step s s' Hs E.
  - cbn in E. inversion E; subst. split; auto.
  - cbn in E. destruct (f s a) as [s1|] eqn:E1; [|discriminate]. cbn in E. destruct (Step a s s1 (or_introl eq_refl) Hs E1) as [I1 C1].
    destruct (IH (fun b t t' Hb => Step b t t' (or_intror Hb)) s1 s' I1 E) as [I2 C2]. split; [exact I2|].
    intros c Hc. destruct (C2 c Hc) as [H|(b & Hb & Hq)]; [|right; exists b; split; [now right|exact Hq]].
    destruct (C1 c H) as [H'|H']; [now left|right; exists a; split; [now left|exact H']].
Qed.

(** ** Closed pixels of the grid of step v *)
Definition touch (v : R) (c : Z * Z) (r : vec2) : Prop :=
  IZR (fst c) * v <= x2 r <= (IZR (fst c) + 1) * v /\ IZR (snd c) * v <= y2 r <= (IZR (snd c) + 1) * v.
Definition pcenter (v : R) (c : Z * Z) : vec2 := V2 ((IZR (fst c) + 1 / 2) * v) ((IZR (snd c) + 1 / 2) * v).
Lemma touch_center v c : 0 < v -> touch v c (pcenter v c).
Proof. intros Hv. unfold touch, pcenter; cbn. nra. Qed.
Lemma touch_segment v c p q r : touch v c p -> touch v c q -> in_segment2 r p q -> touch v c r.
Proof. intros (P1 & P2) (Q1 & Q2) (t & T & Ex & Ey). unfold touch. rewrite Ex, Ey. split; nra. Qed.
Lemma step_cover v d e r : 0 < v -> adj2 d e -> in_segment2 r (pcenter v d) (pcenter v e) -> touch v d r \/ touch v e r.
Proof.
  intros Hv A (t & T & Ex & Ey). destruct d as [i j], e as [i' j']. unfold adj2 in A. cbn in A. unfold touch, pcenter in *. cbn in *. rewrite Ex, Ey.
  assert (C : (i' = i /\ (j' = j + 1 \/ j' = j - 1) \/ j' = j /\ (i' = i + 1 \/ i' = i - 1))%Z) by lia.
  assert (Tv : 0 <= t * v <= v) by nra.
  destruct C as [[-> [-> | ->]]|[-> [-> | ->]]]; rewrite ?plus_IZR, ?minus_IZR; (destruct (Rle_dec t (1 / 2)) as [H|H]; [left|right]); split; nra.
Qed.

Section Enclosed.
Variables (v : R) (a b c : vec2) (S : Z * Z -> Prop).
Hypothesis Hv : 0 < v.
Hypothesis Hab : x2 a <> x2 b \/ y2 a <> y2 b.
Hypothesis HS : forall d r, on_edges r a b c -> touch v d r -> S d.
Let T p := in_triangle2 p a b c.

Lemma inside_center d r : touch v d r -> T r -> ~ S d -> T (pcenter v d).
Proof.
  intros Ht Hr Hd. apply NNPP. intros Hc. destruct (crossing a b c r (pcenter v d) Hab Hr Hc) as (u & Hu & He).
  apply Hd. apply (HS d u He). exact (touch_segment v d r (pcenter v d) u Ht (touch_center v d Hv) Hu).
Qed.
Lemma outside_stays d e : path adj2 (fun x => ~ S x) d e -> ~ T (pcenter v d) -> ~ T (pcenter v e).
Proof.
  intros H H0. induction H as [x Hx|x y z Hp IH A Hz]; [exact H0|]. intros HT. specialize (IH H0).
  destruct (crossing a b c (pcenter v z) (pcenter v y) Hab HT IH) as (u & Hu & He).
  assert (Hu' : in_segment2 u (pcenter v y) (pcenter v z)). { destruct Hu as (t & T0 & Ex & Ey). exists (1 - t). split; [lra|]. rewrite Ex, Ey. split; ring. }
  destruct (step_cover v y z u Hv A Hu') as [K|K]; [apply (path_end _ _ _ _ Hp)|apply Hz]; eauto.
Qed.
End Enclosed.

(** ** _pixel_centers_to_filled_pixel_matrix *)
Definition rint_ok (d : nat) : Prop := forall k, rint d (IZR k) = k.
Lemma rint_IZR d k : rint d (IZR k) = k.
Proof.
  unfold rint, round_digits. assert (P : 0 < 10 ^ d) by (apply pow_lt; lra).
  assert (E : 10 ^ d = IZR (10 ^ Z.of_nat d)) by (rewrite <- pow_IZR; reflexivity).
  rewrite E, <- mult_IZR, round_IZR, mult_IZR, <- E. replace (IZR k * 10 ^ d / 10 ^ d) with (IZR k) by (field; lra). apply trunc_IZR.
Qed.
Lemma div_step v i j : 0 < v -> ((IZR i + 1 / 2) * v - (IZR j + 1 / 2) * v) / v = IZR (i - j).
Proof. intros Hv. rewrite minus_IZR. field. lra. Qed.

Lemma write2_loop l : forall m,
  Forall (fun c => In2 (rows m) (cols m) c) l ->
  exists m', foldM write2 l m = Ok m' /\ rows m' = rows m /\ cols m' = cols m /\ forall c, at2 m' c = true <-> at2 m c = true \/ In c l.
Proof.
  induction l as [|d l IH]; intros m H.
  - exists m. cbn. intuition.
  - inversion H as [|? ? Hd Hl]; subst. cbn. unfold write2 at 1. rewrite (proj2 (inb2_spec _ _ _) Hd). cbn [bind].
    destruct (IH {| rows := rows m; cols := cols m; at2 := upd eqb2 (at2 m) d true |}) as (m' & E & Er & Ec & Hm); [exact Hl|].
    exists m'. split; [exact E|]. split; [exact Er|]. split; [exact Ec|]. intros e. rewrite Hm. cbn [at2]. unfold upd.
    destruct (eqb2 e d) eqn:Eq.
    + apply eqb2_spec in Eq. subst e. cbn. intuition.
    + assert (d <> e). { intros ->. rewrite (proj2 (eqb2_spec e e) eq_refl) in Eq. discriminate. } cbn. intuition congruence.
Qed.
Lemma foldM_map {A B S} (f : S -> B -> res S) (g : A -> B) l s : foldM f (map g l) s = foldM (fun s a => f s (g a)) l s.
Proof. revert s. induction l as [|a l IH]; intros s; cbn; [reflexivity|]. destruct (f s (g a)); cbn; auto. Qed.
Lemma foldM_ext {A S} (f g : S -> A -> res S) l s : (forall a s, In a l -> f s a = g s a) -> foldM f l s = foldM g l s.
Proof. revert s. induction l as [|a l IH]; intros s H; cbn; [reflexivity|]. rewrite H by now left. destruct (g s a); cbn; auto. apply IH. intros; apply H; now right. Qed.

(** the cells that the outside cannot reach *)
Definition reach (S : Z * Z -> Prop) (w h : Z) (d : Z * Z) : Prop :=
  path adj2 (fun d => In2 w h d /\ ~ S d) (0, 0)%Z d.
Lemma filled_ok v (l : list (Z * Z)) i0 j0 w h : 0 < v -> (0 <= w)%Z -> (0 <= h)%Z ->
  (forall d, In d l -> (i0 <= fst d < i0 + w)%Z /\ (j0 <= snd d < j0 + h)%Z) ->
  exists m, filled_pixel_matrix (map (pcenter v) l) v (w, h) (pcenter v (i0, j0)) = Ok m /\ rows m = (w + 2)%Z /\ cols m = (h + 2)%Z
   /\ forall d, In2 w h d -> let e := (fst d + 1, snd d + 1)%Z in
     at2 m e = true <-> In (i0 + fst d, j0 + snd d)%Z l \/ ~ reach (fun e => In (i0 + fst e - 1, j0 + snd e - 1)%Z l) (w + 2) (h + 2) e.
Proof.
  intros Hv Hw Hh Hl. unfold filled_pixel_matrix. rewrite foldM_map.
  rewrite (foldM_ext _ (fun m (p : Z * Z) => write2 m (fst p - i0 + 1, snd p - j0 + 1)%Z)).
  2:{ intros d s _. unfold pcenter; cbn [x2 y2 fst snd]. rewrite !div_step, !rint_IZR by exact Hv. reflexivity. }
  rewrite <- (foldM_map write2 (fun p : Z * Z => (fst p - i0 + 1, snd p - j0 + 1)%Z)).
  destruct (write2_loop (map (fun p : Z * Z => (fst p - i0 + 1, snd p - j0 + 1)%Z) l) {| rows := w + 2; cols := h + 2; at2 := fun _ => false |}) as (m & E & Er & Ec & Hm).
  { apply Forall_forall. intros e He. apply in_map_iff in He as (d & <- & Hd). specialize (Hl d Hd). unfold In2; cbn. lia. }
  rewrite E. cbn [bind]. cbn in Er, Ec, Hm.
  assert (At : forall e, at2 m e = true <-> In (i0 + fst e - 1, j0 + snd e - 1)%Z l).
  { intros e. rewrite Hm, in_map_iff. split.
    - intros [H|(d & <- & Hd)]; [discriminate|]. destruct d as [x y]. cbn in *. replace (i0 + (x - i0 + 1) - 1)%Z with x by lia. now replace (j0 + (y - j0 + 1) - 1)%Z with y by lia.
    - intros H. right. eexists. split; [|exact H]. destruct e as [x y]. cbn. f_equal; lia. }
  assert (H00 : In2 (rows m) (cols m) (0, 0)%Z) by (unfold In2; rewrite Er, Ec; cbn; lia).
  destruct (flood2_correct m (0, 0)%Z true H00) as (r & F & Fr & Fc & Fa).
  unfold flood_fill_matrix_2d in F. rewrite (proj2 (inb2_spec _ _ _) H00) in F. cbn [negb] in F. rewrite F. cbn [bind].
  eexists. split; [reflexivity|]. cbn [rows cols at2]. split; [reflexivity|]. split; [reflexivity|].
  assert (N00 : at2 m (0, 0)%Z = false). { apply not_true_is_false. intros H. apply At in H. apply Hl in H. cbn in H. lia. }
  intros d Hd. cbv zeta. set (e := (fst d + 1, snd d + 1)%Z).
  assert (Ein : (i0 + fst e - 1, j0 + snd e - 1)%Z = (i0 + fst d, j0 + snd d)%Z) by (unfold e; cbn; f_equal; lia).
  rewrite orb_true_iff, At, Ein, negb_true_iff, <- not_true_iff_false, Fa, At, Ein, N00, Er, Ec.
  assert (Pq : path adj2 (fun d0 => In2 (w + 2) (h + 2) d0 /\ at2 m d0 = false) (0, 0)%Z e
     <-> reach (fun e => In (i0 + fst e - 1, j0 + snd e - 1)%Z l) (w + 2) (h + 2) e).
  { unfold reach. apply path_iff; [reflexivity|]. intros x. rewrite <- not_true_iff_false, At. reflexivity. }
  rewrite Pq. split.
  - intros [H|H]; [now left|]. right. intros R. apply H. now right.
  - intros [H|H]; [now left|]. destruct (In_dec (fun x y : Z * Z => ltac:(decide equality; apply Z.eq_dec)) (i0 + fst d, j0 + snd d)%Z l) as [H'|H']; [now left|].
    right. intros [G|G]; contradiction.
Qed.
