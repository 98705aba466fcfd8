(** STL text files: a facet that ends too soon. *)
From Coq Require Import Lia List Bool ZArith.
From Verif.Model Require Import Base StepText Stl.
From Verif.Spec Require Import StlSpec.
From Verif.Proofs Require Import StlP StlP2.
Import ListNotations.
Open Scope Z_scope.

Section Reader.
Variable is_float : text -> bool.
Variable valid : text_triangle -> bool.
Lemma text_prefix ts ls : describes ts ls -> (forall p1 p2 p3 x y z, In (p1, p2, p3) ts -> In (x, y, z) [p1; p2; p3] -> good is_float x /\ good is_float y /\ good is_float z) ->
  forall acc rest, text_loop is_float valid ([], acc) (ls ++ rest) = text_loop is_float valid ([], acc ++ filter valid ts) rest.
Proof.
  induction 1 as [ls O|p1 p2 p3 ts o1 o2 o3 o4 l1 l2 l3 l4 ls N1 N2 N3 O1 V1 O2 V2 O3 V3 O4 EL D IH]; intros G acc rest.
  - rewrite other_loop by auto. cbn [filter]. rewrite app_nil_r. reflexivity.
  - assert (GP : forall p, In p [p1; p2; p3] -> let '(x, y, z) := p in good is_float x /\ good is_float y /\ good is_float z) by (intros [[x y] z] I; eapply G; [left; reflexivity|auto]).
    repeat (rewrite <- app_assoc; cbn [app]).
    rewrite other_loop by auto. cbn [text_loop]. rewrite (vertex_step is_float valid p1) by (auto; apply GP; cbn; auto). cbn [bind app]. repeat (rewrite <- app_assoc; cbn [app]). rewrite other_loop by auto. cbn [text_loop]. rewrite (vertex_step is_float valid p2) by (auto; apply GP; cbn; auto). cbn [bind app]. repeat (rewrite <- app_assoc; cbn [app]). rewrite other_loop by auto. cbn [text_loop]. rewrite (vertex_step is_float valid p3) by (auto; apply GP; cbn; auto). cbn [bind app]. repeat (rewrite <- app_assoc; cbn [app]). rewrite other_loop by auto. cbn [text_loop]. rewrite end_step by auto. cbn [bind].
    rewrite IH by (intros; eapply G; [right; eauto|eauto]). cbn [filter]. destruct (valid (p1, p2, p3)); [rewrite <- app_assoc|]; reflexivity.
Qed.
Lemma vertices_loop ps vs : Forall2 vertex_line ps vs -> Forall number_point ps -> (forall x y z, In (x, y, z) ps -> good is_float x /\ good is_float y /\ good is_float z) ->
  forall pts acc rest, text_loop is_float valid (pts, acc) (vs ++ rest) = text_loop is_float valid (pts ++ ps, acc) rest.
Proof.
  induction 1 as [|p v ps vs V F IH]; intros N G pts acc rest; cbn [app]; [rewrite app_nil_r; reflexivity|]. inversion N; subst. cbn [text_loop]. rewrite (vertex_step is_float valid p); auto.
  - cbn [bind]. rewrite IH; auto; [rewrite <- app_assoc; reflexivity|]. intros; apply G; right; auto.
  - destruct p as [[x y] z]. apply G. left; auto.
Qed.
Lemma end_early l pts ts : end_line l -> (length pts < 3)%nat -> text_step is_float valid (pts, ts) l = Err IndexError.
Proof.
  intros [V E] L. unfold text_step. apply contains_false in V. apply contains_spec in E. rewrite V. cbn [bind]. rewrite E. destruct pts as [|p1 [|p2 [|p3 pts]]]; auto. cbn [length] in L. lia.
Qed.
End Reader.
Lemma facet_too_short is_float valid header ts ls o1 ps vs o2 l rest : describes ts ls ->
  (forall p1 p2 p3 x y z, In (p1, p2, p3) ts -> In (x, y, z) [p1; p2; p3] -> (is_float x = true /\ is_float (x ++ [LF]) = true) /\ (is_float y = true /\ is_float (y ++ [LF]) = true) /\ (is_float z = true /\ is_float (z ++ [LF]) = true)) ->
  Forall other_line o1 -> Forall2 vertex_line ps vs -> Forall number_point ps ->
  (forall x y z, In (x, y, z) ps -> (is_float x = true /\ is_float (x ++ [LF]) = true) /\ (is_float y = true /\ is_float (y ++ [LF]) = true) /\ (is_float z = true /\ is_float (z ++ [LF]) = true)) ->
  (length ps < 3)%nat -> Forall other_line o2 -> end_line l ->
  stl_load_text is_float valid (header :: ls ++ o1 ++ vs ++ o2 ++ l :: rest) = Err IndexError.
Proof.
  intros D G O1 V N GP L O2 E. unfold stl_load_text. rewrite (text_prefix is_float valid ts ls D G). rewrite other_loop by auto. rewrite (vertices_loop is_float valid ps vs V N GP). rewrite other_loop by auto.
  cbn [text_loop app]. rewrite end_early by auto. reflexivity.
Qed.
