(** STL files: text reader. *)
From Coq Require Import Lia List Bool ZArith.
From Verif.Model Require Import Base StepText Stl.
From Verif.Spec Require Import StlSpec.
From Verif.Proofs Require Import StlP.
Import ListNotations.
Open Scope Z_scope.

Lemma prefixb_spec p : forall s, prefixb p s = true <-> exists b, s = p ++ b.
Proof.
  induction p as [|a p IH]; intros s; cbn [prefixb]; [split; auto; intros _; exists s; auto|]. destruct s as [|c s]; [split; [discriminate|intros (b & B); discriminate]|]. rewrite andb_true_iff, IH, Ascii.eqb_eq. split.
  - intros (-> & b & ->). exists b. auto.
  - intros (b & B). injection B as -> ->. eauto.
Qed.
Lemma contains_spec p : forall s, contains p s = true <-> occurs p s.
Proof.
  unfold occurs. induction s as [|c s IH]; cbn [contains]; rewrite orb_true_iff, prefixb_spec.
  - split; [intros [(b & B)|]; [exists [], b; auto|discriminate]|]. intros (a & b & E). left. destruct a; [exists b; auto|discriminate].
  - rewrite IH. split.
    + intros [(b & B)|(a & b & E)]; [exists [], b; auto|exists (c :: a), b; cbn; congruence].
    + intros ([|d a] & b & E); [left; exists b; auto|right; injection E as _ E; eauto].
Qed.
Lemma contains_false p s : contains p s = false <-> ~ occurs p s.
Proof. rewrite <- contains_spec. destruct (contains p s); split; congruence || tauto. Qed.
Lemma occurs_in p s c : occurs p s -> In c p -> In c s.
Proof. intros (a & b & ->) I. apply in_or_app. right. apply in_or_app. auto. Qed.
Lemma remove_none p c r s : p = c :: r -> ~ In c s -> remove_all p s 0 = s.
Proof.
  intros -> N. induction s as [|a s IH]; [reflexivity|]. cbn [remove_all prefixb]. destruct (Ascii.eqb_spec c a) as [->|D]; [exfalso; apply N; left; auto|]. cbn [andb]. rewrite IH; auto. intros I. apply N. right. auto.
Qed.
Lemma remove_prefix p s : forall q, length q = length p -> remove_all p (q ++ s) (length p) = remove_all p s 0.
Proof. revert s. assert (G : forall k q s, length q = k -> remove_all p (q ++ s) k = remove_all p s 0) by (induction k; intros [|a q] s L; cbn in L; try discriminate; [reflexivity|]; cbn [app remove_all]; apply IHk; lia). intros s q L. apply G. auto. Qed.
Lemma remove_one p c r a s : p = c :: r -> ~ In c a -> ~ In c s -> remove_all p (a ++ p ++ s) 0 = a ++ s.
Proof.
  intros P A S0. induction a as [|d a IH].
  - cbn [app]. subst p. cbn [app remove_all]. assert (PB : prefixb (c :: r) (c :: r ++ s) = true) by (apply prefixb_spec; exists s; reflexivity). rewrite PB. cbn [length Nat.sub]. rewrite Nat.sub_0_r.
    assert (G : forall k q t, length q = k -> remove_all (c :: r) (q ++ t) k = remove_all (c :: r) t 0) by (induction k; intros [|e q] t L; cbn in L; try discriminate; [reflexivity|]; cbn [app remove_all]; apply IHk; lia). rewrite G by auto. apply (remove_none _ c r); auto.
  - assert (D : (c =? d)%char = false) by (apply Ascii.eqb_neq; intros ->; apply A; left; auto). assert (A' : ~ In c a) by (intros I; apply A; right; auto). specialize (IH A'). revert IH. rewrite P. intros IH. cbn [app remove_all prefixb]. rewrite D. cbn [andb]. f_equal. exact IH.
Qed.
Lemma split_spaces n s : split_on " " (spaces n ++ s) = repeat [] n ++ split_on " " s.
Proof. induction n; [reflexivity|]. cbn [spaces repeat app split_on]. unfold spaces in IHn. rewrite IHn. reflexivity. Qed.
Lemma split_word w s : ~ In " "%char w -> split_on " " (w ++ " "%char :: s) = w :: split_on " " s.
Proof.
  induction w as [|a w IH]; intros N; [reflexivity|]. cbn [app split_on]. destruct (Ascii.eqb_spec a " ") as [->|D]; [exfalso; apply N; left; auto|]. rewrite IH; [reflexivity|]. intros I. apply N. right. auto.
Qed.
Lemma split_last w : ~ In " "%char w -> split_on " " w = [w].
Proof. induction w as [|a w IH]; intros N; [reflexivity|]. cbn [split_on]. destruct (Ascii.eqb_spec a " ") as [->|D]; [exfalso; apply N; left; auto|]. rewrite IH; [reflexivity|]. intros I. apply N. right. auto. Qed.
Lemma filter_repeat n l : filter non_empty (repeat [] n ++ l) = filter non_empty l.
Proof. induction n; [reflexivity|]. cbn [repeat app filter non_empty]. auto. Qed.
Lemma lstrip_spaces n c s : c <> " "%char -> lstrip space_char (spaces n ++ c :: s) = c :: s.
Proof. intros N. induction n; cbn [spaces repeat app lstrip]; [|exact IHn]. unfold space_char. destruct (Ascii.eqb_spec c " "); [congruence|]. reflexivity. Qed.
Lemma number_chars t c : number_text t -> In c t -> number_char c.
Proof. intros [_ F]. rewrite Forall_forall in F. auto. Qed.
Lemma not_number c : (forall d, In d (tx "0123456789+-.eE") -> (d =? c)%char = false) -> forall t, number_text t -> ~ In c t.
Proof. intros H t T I. pose proof (number_chars t c T I) as N. apply H in N. rewrite Ascii.eqb_refl in N. discriminate. Qed.
Ltac notnum := apply not_number; intros d D; repeat (destruct D as [<-|D]; [reflexivity|]); destruct D.
Lemma no_v : forall t, number_text t -> ~ In "v"%char t. Proof. notnum. Qed.
Lemma no_n : forall t, number_text t -> ~ In "n"%char t. Proof. notnum. Qed.
Lemma no_space : forall t, number_text t -> ~ In " "%char t. Proof. notnum. Qed.
Lemma number_not_space t : number_text t -> forall c, In c t -> is_space c = false.
Proof. intros T c I. pose proof (number_chars t c T I) as N. repeat (destruct N as [<-|N]; [reflexivity|]). destruct N. Qed.
Lemma lstrip_none f t : (forall c, In c t -> f c = false) -> lstrip f t = t.
Proof. destruct t as [|c t]; intros H; [reflexivity|]. cbn. rewrite (H c (or_introl eq_refl)). auto. Qed.
Lemma strip_number t : number_text t -> strip is_space t = t.
Proof. intros T. unfold strip. rewrite (lstrip_none is_space t) by (apply number_not_space; auto). rewrite lstrip_none by (intros c I; apply in_rev in I; eapply number_not_space; eauto). apply rev_involutive. Qed.
Lemma strip_number_lf t : number_text t -> strip is_space (t ++ [LF]) = t.
Proof.
  intros T. unfold strip. assert (H : lstrip is_space (t ++ [LF]) = t ++ [LF]). { destruct T as [N F]. destruct t as [|c t]; [tauto|]. cbn [app lstrip]. rewrite (number_not_space (c :: t)); auto; [split; auto|left; auto]. } rewrite H, rev_app_distr. cbn [rev app lstrip]. change (is_space LF) with true. cbn [lstrip]. rewrite lstrip_none by (intros c I; apply in_rev in I; eapply number_not_space; eauto). apply rev_involutive.
Qed.
Section Reader.
Variable is_float : text -> bool.
Variable valid : text_triangle -> bool.
Definition good (t : text) := is_float t = true /\ is_float (t ++ [LF]) = true.
Lemma vertex_step p l pts ts : number_point p -> (let '(x, y, z) := p in good x /\ good y /\ good z) -> vertex_line p l -> text_step is_float valid (pts, ts) l = Ok (pts ++ [p], ts).
Proof.
  destruct p as [[x y] z]. intros (NX & NY & NZ) (GX & GY & GZ) (a & b & c & d & E). unfold text_step.
  assert (C : contains (tx "vertex") l = true). { apply contains_spec. exists (spaces a), (spaces (S b) ++ x ++ spaces (S c) ++ y ++ spaces (S d) ++ z ++ [LF]). auto. } rewrite C.
  assert (SPV : forall (ch : ascii) n, ch <> " "%char -> ~ In ch (spaces n)) by (intros ch n D I; apply repeat_spec in I; congruence).
  assert (NIN : forall ch, ch <> " "%char -> ch <> LF -> (forall t, number_text t -> ~ In ch t) -> ~ In ch (spaces (S b) ++ x ++ spaces (S c) ++ y ++ spaces (S d) ++ z ++ [LF])).
  { intros ch D1 D2 H I. apply in_app_iff in I as [I|I]; [eapply SPV; eauto|]. apply in_app_iff in I as [I|I]; [eapply H; [|eauto]; auto|]. apply in_app_iff in I as [I|I]; [eapply SPV; eauto|]. apply in_app_iff in I as [I|I]; [eapply H; [|eauto]; auto|]. apply in_app_iff in I as [I|I]; [eapply SPV; eauto|]. apply in_app_iff in I as [I|[I|[]]]; [eapply H; [|eauto]; auto|congruence]. }
  assert (R : remove_all (tx "vertex") l 0 = spaces (a + S b) ++ x ++ spaces (S c) ++ y ++ spaces (S d) ++ z ++ [LF]).
  { rewrite E. rewrite (remove_one _ "v"%char (tx "ertex")); [|reflexivity|apply SPV; discriminate|apply NIN; [discriminate|discriminate|apply no_v]]. unfold spaces. rewrite repeat_app, <- app_assoc. reflexivity. } rewrite R.
  assert (LS : lstrip space_char (spaces (a + S b) ++ x ++ spaces (S c) ++ y ++ spaces (S d) ++ z ++ [LF]) = x ++ spaces (S c) ++ y ++ spaces (S d) ++ z ++ [LF]).
  { destruct x as [|c0 x]; [destruct NX; tauto|]. cbn [app]. apply lstrip_spaces. intros Q. apply (no_space (c0 :: x) NX). left. auto. } cbv zeta. rewrite LS.
  assert (SP : filter non_empty (split_on " " (x ++ spaces (S c) ++ y ++ spaces (S d) ++ z ++ [LF])) = [x; y; z ++ [LF]]).
  { change (spaces (S c)) with (" "%char :: spaces c). change (spaces (S d)) with (" "%char :: spaces d). cbn [app]. rewrite split_word by (apply no_space; auto). rewrite split_spaces, split_word by (apply no_space; auto). rewrite split_spaces, split_last.
    2: { intros I. apply in_app_iff in I as [I|[I|[]]]; [eapply no_space; eauto|discriminate]. }
    destruct x as [|x0 x]; [destruct NX; tauto|]. destruct y as [|y0 y]; [destruct NY; tauto|]. destruct z as [|z0 z]; [destruct NZ; tauto|]. cbn [filter non_empty]. rewrite filter_repeat. cbn [filter non_empty]. rewrite filter_repeat. cbn [filter non_empty app]. reflexivity. }
  rewrite SP. destruct GX as [GX _], GY as [GY _], GZ as [_ GZ]. rewrite GX, GY, GZ. cbn [andb bind]. rewrite !strip_number, strip_number_lf by auto.
  assert (NE : contains (tx "endfacet") (x ++ spaces (S c) ++ y ++ spaces (S d) ++ z ++ [LF]) = false). { apply contains_false. intros O. apply (occurs_in _ _ "n"%char) in O; [|cbn; auto]. apply (NIN "n"%char); [discriminate|discriminate|apply no_n|]. apply in_or_app. right. auto. } rewrite NE. reflexivity.
Qed.
Lemma other_step l st : other_line l -> text_step is_float valid st l = Ok st.
Proof. intros [V E]. destruct st as [pts ts]. unfold text_step. apply contains_false in V, E. rewrite V. cbn [bind]. rewrite E. reflexivity. Qed.
Lemma other_loop o : Forall other_line o -> forall st ls, text_loop is_float valid st (o ++ ls) = text_loop is_float valid st ls.
Proof. induction 1 as [|l o O F IH]; intros st ls; [reflexivity|]. cbn [app text_loop]. rewrite other_step by auto. cbn [bind]. apply IH. Qed.
Lemma end_step l p1 p2 p3 ts : end_line l -> text_step is_float valid ([p1; p2; p3], ts) l = Ok ([], if valid (p1, p2, p3) then ts ++ [(p1, p2, p3)] else ts).
Proof. intros [V E]. unfold text_step. apply contains_false in V. apply contains_spec in E. rewrite V. cbn [bind]. rewrite E. reflexivity. Qed.
Lemma text_ok ts ls : describes ts ls -> (forall p1 p2 p3 x y z, In (p1, p2, p3) ts -> In (x, y, z) [p1; p2; p3] -> good x /\ good y /\ good z) ->
  forall acc, text_loop is_float valid ([], acc) ls = Ok (acc ++ filter valid ts).
Proof.
  induction 1 as [ls O|p1 p2 p3 ts o1 o2 o3 o4 l1 l2 l3 l4 ls N1 N2 N3 O1 V1 O2 V2 O3 V3 O4 EL D IH]; intros G acc.
  - rewrite <- (app_nil_r ls), other_loop by auto. cbn. rewrite app_nil_r. reflexivity.
  - assert (GP : forall p, In p [p1; p2; p3] -> let '(x, y, z) := p in good x /\ good y /\ good z) by (intros [[x y] z] I; eapply G; [left; reflexivity|auto]).
    rewrite other_loop by auto. cbn [text_loop]. rewrite (vertex_step p1) by (auto; apply GP; cbn; auto). cbn [bind app]. rewrite other_loop by auto. cbn [text_loop]. rewrite (vertex_step p2) by (auto; apply GP; cbn; auto). cbn [bind app]. rewrite other_loop by auto. cbn [text_loop]. rewrite (vertex_step p3) by (auto; apply GP; cbn; auto). cbn [bind app]. rewrite other_loop by auto. cbn [text_loop]. rewrite end_step by auto. cbn [bind].
    rewrite IH by (intros; eapply G; [right; eauto|eauto]). cbn [filter]. destruct (valid (p1, p2, p3)); [rewrite <- app_assoc|]; reflexivity.
Qed.
End Reader.
Lemma load_text is_float valid header ts ls : describes ts ls ->
  (forall p1 p2 p3 x y z, In (p1, p2, p3) ts -> In (x, y, z) [p1; p2; p3] -> (is_float x = true /\ is_float (x ++ [LF]) = true) /\ (is_float y = true /\ is_float (y ++ [LF]) = true) /\ (is_float z = true /\ is_float (z ++ [LF]) = true)) ->
  stl_load_text is_float valid (header :: ls) = Ok (skipn 6 header, filter valid ts).
Proof. intros D G. unfold stl_load_text. rewrite (text_ok is_float valid ts ls D G). reflexivity. Qed.
(** a facet indented by tabs *)
Definition TAB : ascii := Ascii.ascii_of_nat 9.
Lemma tab_wrong is_float valid : stl_load_text is_float valid [tx "solid a" ++ [LF]; tx "facet normal 0 0 1" ++ [LF]; tx "outer loop" ++ [LF]; TAB :: tx "vertex 0 0 0" ++ [LF]; TAB :: tx "vertex 1 0 0" ++ [LF]; TAB :: tx "vertex 0 1 0" ++ [LF]; tx "endloop" ++ [LF]; tx "endfacet" ++ [LF]] = Err ValueError.
Proof. vm_compute. reflexivity. Qed.
(** a space before the end of the line *)
Lemma trailing_wrong is_float valid : stl_load_text is_float valid [tx "solid a" ++ [LF]; tx "vertex 0 0 0 " ++ [LF]] = Err ValueError.
Proof. vm_compute. reflexivity. Qed.
(** the name keeps the line feed *)
Lemma text_name is_float valid name : stl_load_text is_float valid [tx "solid " ++ name ++ [LF]] = Ok (name ++ [LF], []).
Proof. reflexivity. Qed.
