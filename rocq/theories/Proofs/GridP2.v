(** Grid2D *)
From Coq Require Import Reals Lra Lia List Bool Permutation.
From Verif.Model Require Import Base Vec Grid.
From Verif.Spec Require Import GridSpec2.
From Verif.Proofs Require Import VecP.
Import ListNotations.
Open Scope R_scope.

Lemma INR_pred_pos n : (2 <= n)%nat -> 0 < INR n - 1.
Proof. intros H. apply le_INR in H. change (INR 2) with (1 + 1) in H. lra. Qed.
Lemma linspace_nth a b n i : (2 <= n)%nat -> (i < n)%nat -> nth_error (linspace a b n) i = Some (spaced a b n i).
Proof.
  intros H I. unfold linspace, spaced. pose proof (INR_pred_pos n H) as P. destruct n as [|[|n]]; try lia. rewrite nth_error_map, nth_error_nth' with (d := 0%nat) by (rewrite seq_length; auto). rewrite seq_nth by auto. cbn [option_map]. f_equal. change (0 + i)%nat with i. field. lra.
Qed.
Lemma linspace_length a b n : length (linspace a b n) = n.
Proof. unfold linspace. destruct n as [|[|n]]; auto. rewrite map_length, seq_length. auto. Qed.
Lemma linspace_in a b n x : (2 <= n)%nat -> In x (linspace a b n) <-> exists i, (i < n)%nat /\ x = spaced a b n i.
Proof.
  intros H. split.
  - intros I. apply In_nth_error in I as (i & E). assert (L : (i < n)%nat). { rewrite <- (linspace_length a b n). apply nth_error_Some. rewrite E. discriminate. } exists i. split; auto. rewrite linspace_nth in E by auto. congruence.
  - intros (i & L & ->). eapply nth_error_In. apply linspace_nth; auto.
Qed.
Lemma spaced_flip a b n i : (2 <= n)%nat -> (i < n)%nat -> spaced b a n i = spaced a b n (n - 1 - i).
Proof. intros H I. pose proof (INR_pred_pos n H) as P. unfold spaced. rewrite minus_INR, minus_INR by lia. change (INR 1) with 1. field. lra. Qed.
Lemma linspace_set (s : bool) a b n x : (2 <= n)%nat -> In x (if s then linspace a b n else linspace b a n) <-> exists i, (i < n)%nat /\ x = spaced a b n i.
Proof.
  intros H. destruct s; [apply linspace_in; auto|]. rewrite linspace_in by auto. split; intros (i & L & ->); exists (n - 1 - i)%nat; (split; [lia|]); [apply spaced_flip; auto|rewrite spaced_flip by lia; f_equal; lia].
Qed.
Definition pick (s : bool) a b n i := if s then spaced a b n i else spaced b a n i.
Lemma pick_nth (s : bool) a b n i : (2 <= n)%nat -> (i < n)%nat -> nth_error (if s then linspace a b n else linspace b a n) i = Some (if s then spaced a b n i else spaced b a n i).
Proof. destruct s; apply linspace_nth. Qed.
Lemma pick_length (s : bool) a b n : length (if s then linspace a b n else linspace b a n) = n.
Proof. destruct s; apply linspace_length. Qed.

(** x first *)
Lemma properties_x xmin xmax ymin ymax nx ny sx sy : (2 <= nx)%nat -> (2 <= ny)%nat ->
  exists g, grid_from_properties (xmin, xmax) (ymin, ymax) (nx, ny) [(sx, true); (sy, false)] = Ok g /\
    gdirs g = [(sx, true); (sy, false)] /\ length (rows g) = ny /\ width g nx /\
    (forall i j, (i < nx)%nat -> (j < ny)%nat ->
      cell g j i = Ok (V2 (if sx then spaced xmin xmax nx i else spaced xmax xmin nx i) (if sy then spaced ymin ymax ny j else spaced ymax ymin ny j))).
Proof.
  intros X Y. eexists. split; [reflexivity|]. cbn [gdirs rows]. split; auto. rewrite map_length, pick_length. split; auto. split.
  - intros r I. cbn [rows] in I. apply in_map_iff in I as (y & <- & _). rewrite map_length. apply pick_length.
  - intros i j I J. unfold cell, get. cbn [rows]. rewrite nth_error_map, pick_nth by auto. cbn [option_map bind]. rewrite nth_error_map, pick_nth by auto. reflexivity.
Qed.
(** y first *)
Lemma properties_y xmin xmax ymin ymax nx ny sx sy : (2 <= nx)%nat -> (2 <= ny)%nat ->
  exists g, grid_from_properties (xmin, xmax) (ymin, ymax) (nx, ny) [(sy, false); (sx, true)] = Ok g /\
    gdirs g = [(sy, false); (sx, true)] /\ length (rows g) = nx /\ width g ny /\
    (forall i j, (i < nx)%nat -> (j < ny)%nat ->
      cell g i j = Ok (V2 (if sx then spaced xmin xmax nx i else spaced xmax xmin nx i) (if sy then spaced ymin ymax ny j else spaced ymax ymin ny j))).
Proof.
  intros X Y. eexists. split; [reflexivity|]. cbn [gdirs rows]. split; auto. rewrite map_length, pick_length. split; auto. split.
  - intros r I. cbn [rows] in I. apply in_map_iff in I as (y & <- & _). rewrite map_length. apply pick_length.
  - intros i j I J. unfold cell, get. cbn [rows]. rewrite nth_error_map, pick_nth by auto. cbn [option_map bind]. rewrite nth_error_map, pick_nth by auto. reflexivity.
Qed.
Lemma properties_accepted xl yl n d g : grid_from_properties xl yl n d = Ok g ->
  (exists sx sy, d = [(sx, true); (sy, false)] \/ d = [(sy, false); (sx, true)]) /\ gdirs g = d.
Proof.
  destruct xl, yl, n. unfold grid_from_properties. destruct d as [|[s1 a1] [|[s2 a2] [|? ?]]]; try (destruct a1); try (destruct a2); try discriminate; intros H; apply Ok_inj in H; subst g; (split; [|reflexivity]); eauto.
Qed.
Lemma properties_rejected xl yl n d : (forall sx sy, d <> [(sx, true); (sy, false)] /\ d <> [(sy, false); (sx, true)]) -> grid_from_properties xl yl n d = Err KeyError.
Proof.
  intros H. destruct xl, yl, n. unfold grid_from_properties. destruct d as [|[s1 a1] [|[s2 a2] [|? ?]]]; try (destruct a1); try (destruct a2); auto; exfalso; [destruct (H s1 s2)|destruct (H s2 s1)]; auto.
Qed.
(** whatever the direction, the points are the same *)
Lemma properties_points xmin xmax ymin ymax nx ny d g : (2 <= nx)%nat -> (2 <= ny)%nat ->
  grid_from_properties (xmin, xmax) (ymin, ymax) (nx, ny) d = Ok g ->
  length (grid_points g) = (nx * ny)%nat /\
  forall p, In p (grid_points g) <-> exists i j, (i < nx)%nat /\ (j < ny)%nat /\ p = V2 (spaced xmin xmax nx i) (spaced ymin ymax ny j).
Proof.
  intros X Y H. assert (LC : forall A (l : list (list A)) n, (forall r, In r l -> length r = n) -> length (concat l) = (length l * n)%nat).
  { intros A l n. induction l as [|r l IH]; intros W; [reflexivity|]. cbn [concat length]. rewrite app_length, IH by (intros; apply W; right; auto). rewrite (W r) by (left; auto). lia. }
  pose proof (properties_accepted _ _ _ _ _ H) as [(sx & sy & [-> | ->]) _]; cbn [grid_from_properties] in H; apply Ok_inj in H; subst g; unfold grid_points; cbn [rows].
  - split.
    + rewrite (LC _ _ nx); [rewrite map_length, pick_length; lia|]. intros r I. apply in_map_iff in I as (y & <- & _). rewrite map_length. apply pick_length.
    + intros p. rewrite in_concat. split.
      * intros (r & I & P). apply in_map_iff in I as (y & <- & I). apply in_map_iff in P as (x & <- & P). apply (proj1 (linspace_set _ _ _ _ _ Y)) in I as (j & J & ->). apply (proj1 (linspace_set _ _ _ _ _ X)) in P as (i & I & ->). exists i, j. auto.
      * intros (i & j & I & J & ->). eexists. split; [apply in_map_iff; eexists; split; [reflexivity|]; apply (proj2 (linspace_set sy ymin ymax ny (spaced ymin ymax ny j) Y)); eauto|]. apply in_map_iff. eexists. split; [reflexivity|]. apply (proj2 (linspace_set sx xmin xmax nx _ X)). eauto.
  - split.
    + rewrite (LC _ _ ny); [rewrite map_length, pick_length; lia|]. intros r I. apply in_map_iff in I as (y & <- & _). rewrite map_length. apply pick_length.
    + intros p. rewrite in_concat. split.
      * intros (r & I & P). apply in_map_iff in I as (y & <- & I). apply in_map_iff in P as (x & <- & P). apply (proj1 (linspace_set _ _ _ _ _ X)) in I as (j & J & ->). apply (proj1 (linspace_set _ _ _ _ _ Y)) in P as (i & I & ->). exists j, i. auto.
      * intros (i & j & I & J & ->). eexists. split; [apply in_map_iff; eexists; split; [reflexivity|]; apply (proj2 (linspace_set sx xmin xmax nx (spaced xmin xmax nx i) X)); eauto|]. apply in_map_iff. eexists. split; [reflexivity|]. apply (proj2 (linspace_set sy ymin ymax ny _ Y)). eauto.
Qed.
Lemma width_first {A} (g : grid A) n : width g n -> rows g <> [] -> exists r, get (rows g) 0 = Ok r /\ length r = n.
Proof. intros W N. destruct (rows g) as [|r l] eqn:E; [tauto|]. exists r. split; auto. apply W. rewrite E. left. auto. Qed.
Lemma points_xy_ok xl yl nx ny d g : (2 <= nx)%nat -> (2 <= ny)%nat -> grid_from_properties xl yl (nx, ny) d = Ok g -> points_xy g = Ok (nx, ny).
Proof.
  intros X Y H. destruct xl as [xmin xmax], yl as [ymin ymax]. pose proof (properties_accepted _ _ _ _ _ H) as [(sx & sy & [-> | ->]) D].
  - destruct (properties_x xmin xmax ymin ymax nx ny sx sy X Y) as (g' & G & DD & L & W & _). rewrite H in G. apply Ok_inj in G. subst g'. unfold points_xy, find_direction_index. rewrite D. destruct (width_first g nx W) as (r & R & LR); [destruct (rows g); [cbn in L; lia|discriminate]|]. rewrite R. destruct sx, sy; cbn; rewrite LR, L; reflexivity.
  - destruct (properties_y xmin xmax ymin ymax nx ny sx sy X Y) as (g' & G & DD & L & W & _). rewrite H in G. apply Ok_inj in G. subst g'. unfold points_xy, find_direction_index. rewrite D. destruct (width_first g ny W) as (r & R & LR); [destruct (rows g); [cbn in L; lia|discriminate]|]. rewrite R. destruct sx, sy; cbn; rewrite LR, L; reflexivity.
Qed.
Lemma get_last_ok {A} (l : list A) a : nth_error l (length l - 1) = Some a -> get_last l = Ok a.
Proof.
  intros H. unfold get_last. destruct (rev l) as [|b r] eqn:E.
  - apply (f_equal (@rev A)) in E. rewrite rev_involutive in E. subst l. discriminate.
  - apply (f_equal (@rev A)) in E. rewrite rev_involutive in E. subst l. cbn [rev] in H. rewrite app_length in H. cbn [length] in H. rewrite nth_error_app2 in H by lia. replace (length (rev r) + 1 - 1 - length (rev r))%nat with 0%nat in H by lia. cbn in H. congruence.
Qed.
Lemma spaced_0 a b n : (2 <= n)%nat -> spaced a b n 0 = a.
Proof. intros H. pose proof (INR_pred_pos n H). unfold spaced. cbn [INR]. field. lra. Qed.
Lemma spaced_last a b n : (2 <= n)%nat -> spaced a b n (n - 1) = b.
Proof. intros H. pose proof (INR_pred_pos n H). unfold spaced. rewrite minus_INR by lia. change (INR 1) with 1. field. lra. Qed.
Lemma limits_ok xmin xmax ymin ymax nx ny d g : (2 <= nx)%nat -> (2 <= ny)%nat -> xmin <= xmax -> ymin <= ymax ->
  grid_from_properties (xmin, xmax) (ymin, ymax) (nx, ny) d = Ok g -> limits_xy g = Ok ((xmin, xmax), (ymin, ymax)).
Proof.
  intros X Y LX LY H. assert (MM : forall (s : bool) a b, a <= b -> Rmin (if s then a else b) (if s then b else a) = a /\ Rmax (if s then a else b) (if s then b else a) = b).
  { intros s a b L. destruct s; unfold Rmin, Rmax; destruct (Rle_dec _ _); split; lra. }
  assert (FIN : forall (sx sy : bool), Ok (A := (R * R) * (R * R)) ((Rmin (if sx then xmin else xmax) (if sx then xmax else xmin), Rmax (if sx then xmin else xmax) (if sx then xmax else xmin)), (Rmin (if sy then ymin else ymax) (if sy then ymax else ymin), Rmax (if sy then ymin else ymax) (if sy then ymax else ymin))) = Ok ((xmin, xmax), (ymin, ymax))).
  { intros sx sy. destruct (MM sx xmin xmax LX) as [-> ->]. destruct (MM sy ymin ymax LY) as [-> ->]. reflexivity. }
  assert (PK0 : forall (s : bool) a b n, (2 <= n)%nat -> (if s then spaced a b n 0 else spaced b a n 0) = if s then a else b) by (intros [] a b n N; apply spaced_0; auto).
  assert (PK1 : forall (s : bool) a b n, (2 <= n)%nat -> (if s then spaced a b n (n - 1) else spaced b a n (n - 1)) = if s then b else a) by (intros [] a b n N; apply spaced_last; auto).
  pose proof (properties_accepted _ _ _ _ _ H) as [(sx & sy & [-> | ->]) _].
  - destruct (properties_x xmin xmax ymin ymax nx ny sx sy X Y) as (g' & G & DD & L & W & C). rewrite H in G. apply Ok_inj in G. subst g'. pose proof (C 0%nat 0%nat ltac:(lia) ltac:(lia)) as C0. pose proof (C (nx - 1)%nat (ny - 1)%nat ltac:(lia) ltac:(lia)) as C1. rewrite !PK0 in C0 by auto. rewrite !PK1 in C1 by auto. unfold limits_xy. unfold cell in C0, C1.
    destruct (get (rows g) 0) as [r0|] eqn:E0; [|discriminate]. cbn [bind] in *. rewrite C0. cbn [bind]. destruct (get (rows g) (ny - 1)) as [rn|] eqn:E1; [|discriminate]. cbn [bind] in C1. assert (GE : forall A (l : list A) i a, get l i = Ok a -> nth_error l i = Some a) by (intros A l i a; unfold get; destruct (nth_error l i); congruence). apply GE in E1, C1. assert (LN : length rn = nx) by (apply W; eapply nth_error_In; eauto).
    rewrite (get_last_ok (rows g) rn) by (rewrite L; auto). cbn [bind]. rewrite (get_last_ok rn _) with (1 := eq_trans (f_equal (fun k => nth_error rn (k - 1)) LN) C1). cbn [bind x2 y2]. apply FIN.
  - destruct (properties_y xmin xmax ymin ymax nx ny sx sy X Y) as (g' & G & DD & L & W & C). rewrite H in G. apply Ok_inj in G. subst g'. pose proof (C 0%nat 0%nat ltac:(lia) ltac:(lia)) as C0. pose proof (C (nx - 1)%nat (ny - 1)%nat ltac:(lia) ltac:(lia)) as C1. rewrite !PK0 in C0 by auto. rewrite !PK1 in C1 by auto. unfold limits_xy. unfold cell in C0, C1.
    destruct (get (rows g) 0) as [r0|] eqn:E0; [|discriminate]. cbn [bind] in *. rewrite C0. cbn [bind]. destruct (get (rows g) (nx - 1)) as [rn|] eqn:E1; [|discriminate]. cbn [bind] in C1. assert (GE : forall A (l : list A) i a, get l i = Ok a -> nth_error l i = Some a) by (intros A l i a; unfold get; destruct (nth_error l i); congruence). apply GE in E1, C1. assert (LN : length rn = ny) by (apply W; eapply nth_error_In; eauto).
    rewrite (get_last_ok (rows g) rn) by (rewrite L; auto). cbn [bind]. rewrite (get_last_ok rn _) with (1 := eq_trans (f_equal (fun k => nth_error rn (k - 1)) LN) C1). cbn [bind x2 y2]. apply FIN.
Qed.
(** from_points *)
Lemma chunks_ok {A} n : (1 <= n)%nat -> forall fuel (l : list A), (length l <= fuel)%nat -> concat (chunks fuel n l) = l /\
  (forall i r, nth_error (chunks fuel n l) i = Some r -> (length r <= n)%nat /\ r <> [] /\ ((S i < length (chunks fuel n l))%nat -> length r = n)).
Proof.
  intros N. induction fuel as [|f IH]; intros l L; [destruct l; [|cbn in L; lia]; split; auto; intros [|i] r; discriminate|]. destruct l as [|a l]; [split; auto; intros [|i] r; discriminate|].
  assert (LS : (length (skipn n (a :: l)) <= f)%nat) by (rewrite skipn_length; cbn [length] in *; lia). destruct (IH _ LS) as [I1 I2]. change (chunks (S f) n (a :: l)) with (firstn n (a :: l) :: chunks f n (skipn n (a :: l))). split; [cbn [concat]; rewrite I1; apply firstn_skipn|].
  intros [|i] r E; cbn [nth_error] in E.
  - injection E as <-. split; [rewrite firstn_length; lia|]. split; [destruct n; [lia|discriminate]|]. cbn [length]. intros S1. rewrite firstn_length. assert (n <= length (a :: l))%nat; [|cbn [length] in *; lia]. destruct (le_lt_dec n (length (a :: l))); auto. exfalso. rewrite skipn_all2 in S1 by lia. destruct f; cbn in S1; lia.
  - destruct (I2 i r E) as (J1 & J2 & J3). split; auto. split; auto. cbn [length]. intros Q. apply J3. lia.
Qed.
Lemma from_points_ok {A} (points : list A) n d : (1 <= n)%nat -> exists g, grid_from_points points n d = Ok g /\ gdirs g = d /\ grid_points g = points /\
  forall i r, nth_error (rows g) i = Some r -> (length r <= n)%nat /\ r <> [] /\ ((S i < length (rows g))%nat -> length r = n).
Proof. intros N. unfold grid_from_points. destruct n; [lia|]. eexists. split; [reflexivity|]. split; auto. unfold grid_points. cbn [rows]. destruct (chunks_ok (S n) N (length points) points (le_n _)) as [C1 C2]. auto. Qed.
Lemma from_points_zero {A} (points : list A) d : grid_from_points points 0 d = Err ValueError.
Proof. reflexivity. Qed.
(** displacement *)
Lemma mapMr_spec {A B} (f : A -> res B) l r : mapMr f l = Ok r -> length r = length l /\ forall i a, nth_error l i = Some a -> exists b, nth_error r i = Some b /\ f a = Ok b.
Proof.
  revert r. induction l as [|a l IH]; intros r; cbn [mapMr].
  - intros H. apply Ok_inj in H. subst r. split; auto. intros [|i] a; discriminate.
  - destruct (f a) as [b|] eqn:F; [|discriminate]. cbn [bind]. destruct (mapMr f l) as [q|] eqn:M; [|discriminate]. cbn [bind]. intros H. apply Ok_inj in H. subst r. destruct (IH q eq_refl) as [I1 I2]. split; [cbn; auto|]. intros [|i] c E; cbn in *; [injection E as <-; eauto|eauto].
Qed.
Lemma mapMr_total {A B} (f : A -> res B) l : (forall a, In a l -> exists b, f a = Ok b) -> exists r, mapMr f l = Ok r.
Proof. induction l as [|a l IH]; intros H; cbn [mapMr]; [eauto|]. destruct (H a (or_introl eq_refl)) as (b & ->). destruct IH as (r & ->); [intros; apply H; right; auto|]. cbn. eauto. Qed.
Lemma mapMr_err {A B} (f : A -> res B) l a e : In a l -> f a = Err e -> (forall b e', f b = Err e' -> e' = e) -> mapMr f l = Err e.
Proof. induction l as [|b l IH]; intros I F U; [destruct I|]. cbn [mapMr]. destruct (f b) as [c|e'] eqn:G; cbn [bind]; [|f_equal; eauto]. destruct I as [<-|I]; [congruence|]. rewrite IH; auto. Qed.
Lemma indexed_nth {A} (l : list A) i p : nth_error (combine (seq 0 (length l)) l) i = Some p -> nth_error l i = Some (snd p) /\ fst p = i.
Proof.
  assert (G : forall k, nth_error (combine (seq k (length l)) l) i = Some p -> nth_error l i = Some (snd p) /\ fst p = (k + i)%nat).
  { revert i. induction l as [|a l IH]; intros [|i] k; cbn; try discriminate; [intros E; injection E as <-; split; auto; cbn; lia|]. intros E. apply IH in E as [E1 E2]. split; auto. lia. }
  intros E. apply G in E as [E1 E2]. auto.
Qed.
Lemma indexed_has {A} (l : list A) i a : nth_error l i = Some a -> nth_error (combine (seq 0 (length l)) l) i = Some (i, a).
Proof.
  intros E. assert (L : (i < length l)%nat) by (apply nth_error_Some; congruence). assert (LC : (i < length (combine (seq 0 (length l)) l))%nat) by (rewrite combine_length, seq_length; lia).
  destruct (nth_error (combine (seq 0 (length l)) l) i) as [[j b]|] eqn:Q; [|apply nth_error_None in Q; lia]. apply indexed_nth in Q as [Q1 Q2]. cbn in *. congruence.
Qed.
Lemma displacement_ok g initial : (length (grid_points initial) <= length (grid_points g))%nat -> exists d, displacement g initial = Ok d /\
  length d = length (grid_points initial) /\ forall i p q, nth_error (grid_points initial) i = Some p -> nth_error (grid_points g) i = Some q -> nth_error d i = Some (sub2 q p).
Proof.
  intros L. unfold displacement. destruct (mapMr_total (fun ip => let '(i, p) := ip in do q <- get (grid_points g) i; Ok (sub2 q p)) (combine (seq 0 (length (grid_points initial))) (grid_points initial))) as (d & D).
  { intros [i p] I. apply in_combine_l in I. apply in_seq in I. unfold get. destruct (nth_error (grid_points g) i) as [q|] eqn:E; [cbn; eauto|]. apply nth_error_None in E. lia. }
  exists d. split; auto. apply mapMr_spec in D as [D1 D2]. split; [rewrite D1, combine_length, seq_length; lia|]. intros i p q P Q. destruct (D2 i (i, p) (indexed_has _ _ _ P)) as (b & B1 & B2). unfold get in B2. rewrite Q in B2. apply Ok_inj in B2. congruence.
Qed.
Lemma displacement_short g initial : (length (grid_points g) < length (grid_points initial))%nat -> displacement g initial = Err IndexError.
Proof.
  intros L. unfold displacement. destruct (nth_error (grid_points initial) (length (grid_points g))) as [p|] eqn:E; [|apply nth_error_None in E; lia].
  eapply mapMr_err; [eapply nth_error_In, indexed_has, E|cbn; unfold get; rewrite (proj2 (nth_error_None _ _) (le_n _)); reflexivity|]. intros [i q] e'. unfold get. destruct (nth_error (grid_points g) i); cbn; congruence.
Qed.
(** grid_pattern *)
Lemma cell_total {A} (g : grid A) n i j : width g n -> (i < length (rows g))%nat -> (j < n)%nat -> exists p, cell g i j = Ok p.
Proof.
  intros W I J. unfold cell, get. destruct (nth_error (rows g) i) as [r|] eqn:E; [|apply nth_error_None in E; lia]. cbn [bind]. assert (L : length r = n) by (apply W; eapply nth_error_In; eauto). destruct (nth_error r j) as [p|] eqn:F; [eauto|]. apply nth_error_None in F. lia.
Qed.
Lemma cell_err {A} (g : grid A) i j e : cell g i j = Err e -> e = IndexError.
Proof. unfold cell, get. destruct (nth_error (rows g) i) as [r|]; cbn [bind]; [destruct (nth_error r j)|]; congruence. Qed.
Lemma pattern_square {A} (g : grid A) n : (1 <= n)%nat -> length (rows g) = n -> width g n -> exists l, grid_pattern g = Ok l /\ length l = ((n - 1) * (n - 1))%nat /\
  (forall i j, (i < n - 1)%nat -> (j < n - 1)%nat -> exists q, In q l /\ quad g i j q) /\ (forall q, In q l -> exists i j, (i < n - 1)%nat /\ (j < n - 1)%nat /\ quad g i j q).
Proof.
  intros N L W. unfold grid_pattern. destruct (width_first g n W) as (r & R & LR); [destruct (rows g); [cbn in L; lia|discriminate]|]. rewrite R. cbn [bind]. rewrite LR, L.
  set (f := fun ij : nat * nat => let '(i, j) := ij in _). set (ix := list_prod _ _).
  assert (FQ : forall i j, In (i, j) ix -> exists q, f (i, j) = Ok q /\ quad g i j q /\ (i < n - 1)%nat /\ (j < n - 1)%nat).
  { intros i j I. apply in_prod_iff in I as [I J]. apply in_seq in I, J. unfold f. replace (i + 1)%nat with (S i) by lia. replace (j + 1)%nat with (S j) by lia.
    destruct (cell_total g n i j W) as (p1 & E1); [lia|lia|]. destruct (cell_total g n (S i) j W) as (p2 & E2); [lia|lia|]. destruct (cell_total g n (S i) (S j) W) as (p3 & E3); [lia|lia|]. destruct (cell_total g n i (S j) W) as (p4 & E4); [lia|lia|].
    rewrite E1, E2, E3, E4. cbn [bind]. eexists. split; [reflexivity|]. split; [exists p1, p2, p3, p4; auto|lia]. }
  destruct (mapMr_total f ix) as (l & M); [intros [i j] I; destruct (FQ i j I) as (q & Q & _); eauto|]. exists l. split; auto. apply mapMr_spec in M as [M1 M2].
  split; [rewrite M1; unfold ix; rewrite prod_length, !seq_length; auto|]. split.
  - intros i j I J. assert (IN : In (i, j) ix) by (apply in_prod_iff; split; apply in_seq; lia). destruct (FQ i j IN) as (q & Q & QQ & _). apply In_nth_error in IN as (k & K). destruct (M2 k _ K) as (b & B1 & B2). rewrite Q in B2. apply Ok_inj in B2. subst b. exists q. split; auto. eapply nth_error_In; eauto.
  - intros q I. apply In_nth_error in I as (k & K). destruct (nth_error ix k) as [[i j]|] eqn:E; [|apply nth_error_None in E; assert (k < length l)%nat by (apply nth_error_Some; congruence); lia]. destruct (M2 k _ E) as (b & B1 & B2). destruct (FQ i j (nth_error_In _ _ E)) as (q' & Q & QQ & I & J). exists i, j. split; auto. split; auto. congruence.
Qed.
Lemma pattern_not_square {A} (g : grid A) r c : length (rows g) = r -> width g c -> (2 <= r)%nat -> (2 <= c)%nat -> r <> c -> grid_pattern g = Err IndexError.
Proof.
  intros L W R2 C2 N. unfold grid_pattern. destruct (width_first g c W) as (r0 & R & LR); [destruct (rows g); [cbn in L; lia|discriminate]|]. rewrite R. cbn [bind]. rewrite LR, L.
  set (f := fun ij : nat * nat => let '(i, j) := ij in _).
  assert (U : forall b e', f b = Err e' -> e' = IndexError).
  { intros [i j] e'. unfold f. destruct (cell g i j) eqn:E1; cbn [bind]; [|intros H; injection H as <-; eapply cell_err; eauto]. destruct (cell g (i + 1) j) eqn:E2; cbn [bind]; [|intros H; injection H as <-; eapply cell_err; eauto]. destruct (cell g (i + 1) (j + 1)) eqn:E3; cbn [bind]; [|intros H; injection H as <-; eapply cell_err; eauto]. destruct (cell g i (j + 1)) eqn:E4; cbn [bind]; [discriminate|intros H; injection H as <-; eapply cell_err; eauto]. }
  assert (OUT : forall i j, (r <= i)%nat \/ (c <= j)%nat -> cell g i j = Err IndexError).
  { intros i j H. unfold cell, get. destruct (nth_error (rows g) i) as [row|] eqn:E; cbn [bind]; auto. assert (i < r)%nat by (rewrite <- L; apply nth_error_Some; congruence). assert (LL : length row = c) by (apply W; eapply nth_error_In; eauto). rewrite (proj2 (nth_error_None row j)); auto. lia. }
  assert (BAD : exists ij, In ij (list_prod (seq 0 (c - 1)) (seq 0 (r - 1))) /\ f ij = Err IndexError).
  { destruct (le_lt_dec c r).
    - exists (0%nat, (c - 1)%nat). split; [apply in_prod_iff; split; apply in_seq; lia|]. destruct (f (0%nat, (c - 1)%nat)) as [q|e] eqn:F; [|f_equal; eapply U; eauto]. exfalso. unfold f in F. replace (c - 1 + 1)%nat with c in F by lia. rewrite (OUT (0 + 1)%nat c) in F by lia. destruct (cell g 0 (c - 1)); cbn [bind] in F; [|discriminate]. destruct (cell g (0 + 1) (c - 1)); cbn [bind] in F; discriminate.
    - exists ((r - 1)%nat, 0%nat). split; [apply in_prod_iff; split; apply in_seq; lia|]. destruct (f ((r - 1)%nat, 0%nat)) as [q|e] eqn:F; [|f_equal; eapply U; eauto]. exfalso. unfold f in F. replace (r - 1 + 1)%nat with r in F by lia. rewrite (OUT r 0%nat) in F by lia. destruct (cell g (r - 1) 0); cbn [bind] in F; discriminate. }
  destruct BAD as (ij & I & F). eapply mapMr_err; eauto.
Qed.
Lemma pattern_wrong : exists xl yl n d g, grid_from_properties xl yl n d = Ok g /\ n = (3, 2)%nat /\ grid_pattern g = Err IndexError.
Proof.
  exists (0, 1), (0, 1), (3, 2)%nat, [(true, true); (true, false)]. destruct (properties_x 0 1 0 1 3 2 true true) as (g & G & _ & L & W & _); try lia. exists g. split; auto. split; auto. eapply pattern_not_square; eauto; lia.
Qed.
