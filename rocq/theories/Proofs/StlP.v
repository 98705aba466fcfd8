(** STL files: binary round trip. *)
From Coq Require Import Lia List Bool ZArith.
From Verif.Model Require Import Base StepText Stl.
From Verif.Spec Require Import StlSpec.
Import ListNotations.
Open Scope Z_scope.

Lemma ok_inj {A} (a b : A) : Ok a = Ok b -> a = b.
Proof. congruence. Qed.
Lemma le_length n : forall x, length (le_bytes n x) = n.
Proof. induction n; intros x; cbn; auto. Qed.
Lemma le_roundtrip n : forall x, 0 <= x < 256 ^ Z.of_nat n -> le_value (le_bytes n x) = x.
Proof.
  induction n as [|n IH]; intros x X; cbn [le_bytes le_value]; [cbn in X; lia|]. rewrite Nat2Z.inj_succ, Z.pow_succ_r in X by lia. rewrite IH; [pose proof (Z.div_mod x 256); lia|]. split; [apply Z.div_pos; lia|apply Z.div_lt_upper_bound; lia].
Qed.
Lemma le_bytes_range n : forall x, Forall byte (le_bytes n x).
Proof. induction n; intros x; cbn; constructor; auto. unfold byte. apply Z.mod_pos_bound. lia. Qed.
Lemma read_app l s n : length l = n -> read_bytes n (l ++ s) = Ok (l, s).
Proof.
  intros <-. unfold read_bytes. rewrite app_length. destruct (Nat.ltb_spec (length l + length s) (length l)); [lia|]. rewrite firstn_app, firstn_all, Nat.sub_diag, skipn_app, skipn_all, Nat.sub_diag. cbn. rewrite app_nil_r. auto.
Qed.
Lemma read_uint_app n x s : 0 <= x < 256 ^ Z.of_nat n -> read_uint n (le_bytes n x ++ s) = Ok (x, s).
Proof. intros X. unfold read_uint. rewrite read_app by apply le_length. cbn [bind]. rewrite le_roundtrip; auto. Qed.
Lemma read_point_app p s : pattern3 p -> read_point (pack_point p ++ s) = Ok (p, s).
Proof.
  destruct p as [[x y] z]. intros (X & Y & Z). unfold pattern in *. unfold read_point, pack_point. change (2 ^ 32) with (256 ^ Z.of_nat 4) in *. rewrite <- !app_assoc. rewrite read_uint_app by auto. cbn [bind]. rewrite read_uint_app by auto. cbn [bind]. rewrite read_uint_app by auto. auto.
Qed.
Lemma read_facets_app ts : Forall pattern_triangle ts -> forall s, read_facets (length ts) (flat_map pack_facet ts ++ s) = Ok ts.
Proof.
  induction 1 as [|[[p1 p2] p3] ts (P1 & P2 & P3) F IH]; intros s; [reflexivity|]. cbn [length read_facets flat_map]. unfold pack_facet at 1. rewrite <- !app_assoc. rewrite read_point_app by (repeat split; lia). cbn [bind]. rewrite read_point_app by auto. cbn [bind]. rewrite read_point_app by auto. cbn [bind]. rewrite read_point_app by auto. cbn [bind]. rewrite read_uint_app by (cbn; lia). cbn [bind]. rewrite IH. auto.
Qed.
Lemma pad_length name : length (pad_name name) = 80%nat.
Proof. unfold pad_name. rewrite firstn_length, app_length, repeat_length. lia. Qed.
Lemma save_load valid name ts s : Forall pattern_triangle ts -> stl_save name ts = Ok s -> stl_load valid s = Ok (pad_name name, filter valid ts).
Proof.
  intros P. unfold stl_save. destruct (Z.leb_spec (2 ^ 32) (Z.of_nat (length ts))); [discriminate|]. intros E. apply ok_inj in E. subst s. unfold stl_load. rewrite read_app by apply pad_length. cbn [bind]. rewrite read_uint_app by (change (256 ^ Z.of_nat 4) with (2 ^ 32); lia). cbn [bind]. rewrite Nat2Z.id.
  rewrite <- (app_nil_r (flat_map pack_facet ts)), read_facets_app; auto.
Qed.
Lemma save_total name ts : Z.of_nat (length ts) < 2 ^ 32 -> exists s, stl_save name ts = Ok s /\ length s = (84 + 50 * length ts)%nat.
Proof.
  intros L. unfold stl_save. destruct (Z.leb_spec (2 ^ 32) (Z.of_nat (length ts))); [lia|]. eexists. split; [reflexivity|]. rewrite !app_length, pad_length, le_length. assert (Q : length (flat_map pack_facet ts) = (50 * length ts)%nat); [|lia]. clear. induction ts as [|[[[[x1 y1] z1] [[x2 y2] z2]] [[x3 y3] z3]] ts IH]; [reflexivity|]. cbn [flat_map]. rewrite app_length, IH. unfold pack_facet, pack_point. rewrite !app_length, !le_length. cbn [length]. lia.
Qed.
Lemma save_too_many name ts : 2 ^ 32 <= Z.of_nat (length ts) -> stl_save name ts = Err OverflowError.
Proof. intros L. unfold stl_save. destruct (Z.leb_spec (2 ^ 32) (Z.of_nat (length ts))); [auto|lia]. Qed.
Lemma pad_short name : (length name <= 80)%nat -> pad_name name = name ++ repeat 0 (80 - length name).
Proof.
  intros L. unfold pad_name. rewrite firstn_app, firstn_all2 by lia. f_equal. assert (G : forall k n, (k <= n)%nat -> firstn k (repeat 0 n) = repeat 0 k); [|apply G; lia]. clear. induction k; intros [|n] H; try reflexivity; try lia. cbn. f_equal. apply IHk. lia.
Qed.
(** a truncated file *)
Lemma read_facets_length n : forall s ts, read_facets n s = Ok ts -> length ts = n /\ (50 * n <= length s)%nat.
Proof.
  assert (RB : forall n s b r, read_bytes n s = Ok (b, r) -> (length s = n + length r)%nat) by (intros k s b r; unfold read_bytes; destruct (Nat.ltb_spec (length s) k); [discriminate|]; intros E; apply ok_inj in E; assert (r = skipn k s) as -> by congruence; rewrite skipn_length; lia).
  assert (RU : forall n s x r, read_uint n s = Ok (x, r) -> (length s = n + length r)%nat) by (intros k s x r; unfold read_uint; destruct (read_bytes k s) as [[b q]|] eqn:E; [|discriminate]; cbn [bind]; intros H; apply ok_inj in H; assert (q = r) as -> by congruence; eauto).
  assert (RP : forall s p r, read_point s = Ok (p, r) -> (length s = 12 + length r)%nat).
  { intros s p r. unfold read_point. destruct (read_uint 4 s) as [[x s1]|] eqn:E1; [|discriminate]. cbn [bind]. destruct (read_uint 4 s1) as [[y s2]|] eqn:E2; [|discriminate]. cbn [bind]. destruct (read_uint 4 s2) as [[z s3]|] eqn:E3; [|discriminate]. cbn [bind]. intros H. apply ok_inj in H. assert (s3 = r) as -> by congruence. apply RU in E1, E2, E3. lia. }
  induction n as [|n IH]; intros s ts; cbn [read_facets].
  - intros E. apply ok_inj in E. subst. split; [auto|lia].
  - destruct (read_point s) as [[p0 s1]|] eqn:E1; [|discriminate]. cbn [bind]. destruct (read_point s1) as [[p1 s2]|] eqn:E2; [|discriminate]. cbn [bind]. destruct (read_point s2) as [[p2 s3]|] eqn:E3; [|discriminate]. cbn [bind]. destruct (read_point s3) as [[p3 s4]|] eqn:E4; [|discriminate]. cbn [bind]. destruct (read_uint 2 s4) as [[u s5]|] eqn:E5; [|discriminate]. cbn [bind].
    destruct (read_facets n s5) as [l|] eqn:E6; [|discriminate]. cbn [bind]. intros H. apply ok_inj in H. subst ts. apply IH in E6 as [L1 L2]. apply RP in E1, E2, E3, E4. apply RU in E5. cbn [length]. split; lia.
Qed.
Lemma truncated valid name ts s k : Forall pattern_triangle ts -> stl_save name ts = Ok s -> (k < length s)%nat -> stl_load valid (firstn k s) = Err IndexError.
Proof.
  intros P S K. assert (LT : Z.of_nat (length ts) < 2 ^ 32) by (unfold stl_save in S; destruct (Z.leb_spec (2 ^ 32) (Z.of_nat (length ts))); [discriminate|auto]).
  destruct (save_total name ts LT) as (s' & S' & LS). rewrite S in S'. apply ok_inj in S'. subst s'. unfold stl_save in S. destruct (Z.leb_spec (2 ^ 32) (Z.of_nat (length ts))); [discriminate|]. apply ok_inj in S.
  assert (ERR : forall n s e, read_bytes n s = Err e -> e = IndexError) by (intros n q e; unfold read_bytes; destruct (length q <? n)%nat; congruence).
  assert (ERU : forall n s e, read_uint n s = Err e -> e = IndexError) by (intros n q e; unfold read_uint; destruct (read_bytes n q) as [[? ?]|] eqn:E; cbn [bind]; [congruence|intros H'; injection H' as <-; eauto]).
  assert (ERP : forall s e, read_point s = Err e -> e = IndexError).
  { intros q e. unfold read_point. destruct (read_uint 4 q) as [[x s1]|] eqn:E1; cbn [bind]; [|intros H'; injection H' as <-; eauto]. destruct (read_uint 4 s1) as [[y s2]|] eqn:E2; cbn [bind]; [|intros H'; injection H' as <-; eauto]. destruct (read_uint 4 s2) as [[z s3]|] eqn:E3; cbn [bind]; [congruence|intros H'; injection H' as <-; eauto]. }
  assert (ERF : forall n s e, read_facets n s = Err e -> e = IndexError).
  { induction n as [|n IH]; intros q e; cbn [read_facets]; [discriminate|]. destruct (read_point q) as [[p0 s1]|] eqn:E1; cbn [bind]; [|intros H'; injection H' as <-; eauto]. destruct (read_point s1) as [[p1 s2]|] eqn:E2; cbn [bind]; [|intros H'; injection H' as <-; eauto]. destruct (read_point s2) as [[p2 s3]|] eqn:E3; cbn [bind]; [|intros H'; injection H' as <-; eauto]. destruct (read_point s3) as [[p3 s4]|] eqn:E4; cbn [bind]; [|intros H'; injection H' as <-; eauto]. destruct (read_uint 2 s4) as [[u s5]|] eqn:E5; cbn [bind]; [|intros H'; injection H' as <-; eauto]. destruct (read_facets n s5) as [l|] eqn:E6; cbn [bind]; [discriminate|intros H'; injection H' as <-; eauto]. }
  destruct (stl_load valid (firstn k s)) as [[nm l]|e] eqn:E.
  - exfalso. unfold stl_load in E. destruct (le_lt_dec 84 k) as [K84|K84].
    + assert (F : firstn k s = pad_name name ++ le_bytes 4 (Z.of_nat (length ts)) ++ firstn (k - 84) (flat_map pack_facet ts)).
      { rewrite <- S. rewrite firstn_app, pad_length, firstn_all2 by (rewrite pad_length; lia). f_equal. rewrite firstn_app, le_length, firstn_all2 by (rewrite le_length; lia). do 2 f_equal. lia. }
      rewrite F, read_app in E by apply pad_length. cbn [bind] in E. rewrite read_uint_app in E by (change (256 ^ Z.of_nat 4) with (2 ^ 32); lia). cbn [bind] in E. rewrite Nat2Z.id in E. destruct (read_facets (length ts) (firstn (k - 84) (flat_map pack_facet ts))) as [q|] eqn:Q; [|discriminate]. apply read_facets_length in Q as [_ Q]. rewrite firstn_length in Q. lia.
    + assert (L : length (firstn k s) = k) by (rewrite firstn_length; lia). unfold read_uint, read_bytes in E. rewrite L in E. destruct (Nat.ltb_spec k 80) as [G|G]; cbn [bind] in E; [discriminate|]. rewrite skipn_length, L in E. destruct (Nat.ltb_spec (k - 80) 4) as [G'|G']; cbn [bind] in E; [discriminate|lia].
  - f_equal. unfold stl_load in E. destruct (read_bytes 80 (firstn k s)) as [[a b]|] eqn:E1; cbn [bind] in E; [|injection E as <-; eauto]. destruct (read_uint 4 b) as [[n b']|] eqn:E2; cbn [bind] in E; [|injection E as <-; eauto]. destruct (read_facets (Z.to_nat n) b') as [q|] eqn:E3; cbn [bind] in E; [discriminate|injection E as <-; eauto].
Qed.
(** the name read back is not the name written *)
Lemma name_wrong : exists name s nm, Forall byte name /\ (length name <= 80)%nat /\ stl_save name [] = Ok s /\ stl_load (fun _ => true) s = Ok (nm, []) /\ nm <> name.
Proof.
  exists [112]. eexists. eexists. split; [constructor; [unfold byte; lia|constructor]|]. split; [cbn; lia|]. split; [reflexivity|]. split; [apply (save_load (fun _ => true) [112] []); [constructor|reflexivity]|]. rewrite pad_short by (cbn; lia). discriminate.
Qed.
(** clean_flat_triangles *)
Lemma pop_map {A} (l : list A) (a : A) is : fold_left pop_at (rev (map S is)) (a :: l) = a :: fold_left pop_at (rev is) l.
Proof.
  rewrite <- map_rev. revert l. induction (rev is) as [|i q IH]; intros l; [reflexivity|]. cbn [map fold_left]. rewrite <- IH. reflexivity.
Qed.
Lemma clean_flat_filter {A} (flat : A -> bool) l : clean_flat flat l = filter (fun t => negb (flat t)) l.
Proof.
  unfold clean_flat. induction l as [|a l IH]; [reflexivity|]. cbn [length seq]. rewrite <- seq_shift. cbn [filter nth_error].
  assert (M : filter (fun i => match nth_error (a :: l) i with Some t => flat t | None => false end) (map S (seq 0 (length l))) = map S (filter (fun i => match nth_error l i with Some t => flat t | None => false end) (seq 0 (length l)))).
  { generalize (seq 0 (length l)). intros q. induction q as [|i q IHq]; [reflexivity|]. cbn [map filter nth_error]. rewrite IHq. destruct (nth_error l i) as [t|]; [destruct (flat t)|]; reflexivity. }
  rewrite M. destruct (flat a); cbn [negb]; [|rewrite pop_map, IH; reflexivity].
  cbn [rev]. rewrite fold_left_app. rewrite pop_map, IH. reflexivity.
Qed.
