(** Lines of the exported file; the units of its context. *)
From Verif.Model Require Import Base StepText StepWrite.
From Verif.Spec Require Import StepFileSpec StepLineSpec.
From Coq Require Import List String Ascii ZArith Bool Lia.
Import ListNotations.
Open Scope list_scope.

Lemma lines_app t r : one_line t -> lines (t ++ newline ++ r) = t :: lines r.
Proof.
  intros H. induction t as [|c t IH]; cbn [app lines newline].
  - rewrite Ascii.eqb_refl. reflexivity.
  - destruct (Ascii.eqb c (ascii_of_nat 10)) eqn:E.
    + apply Ascii.eqb_eq in E. exfalso. apply H. left. exact E.
    + cbn [app newline] in IH. rewrite IH; auto. intros K. apply H. right. auto.
Qed.
Lemma render_statement e : render e = statement e ++ newline.
Proof. unfold render, statement. cbn [app]. f_equal. rewrite <- !app_assoc. reflexivity. Qed.
Lemma rendered_lines l : (forall e, In e l -> one_line (statement e)) -> lines (render_all l) = map statement l ++ [[]].
Proof.
  induction l as [|e l IH]; intros H; [reflexivity|]. unfold render_all. cbn [flat_map map]. rewrite render_statement, <- app_assoc, lines_app by (apply H; left; auto).
  cbn [app]. f_equal. apply IH. intros x I. apply H. right. auto.
Qed.
(** the context of the file refers to a length, a plane angle and a solid angle unit that the file defines *)
Lemma context_units n : exists ctx, In ctx (fst (geometric_context_writer n)) /\ e_id ctx = snd (geometric_context_writer n) /\ says ctx "GLOBAL_UNIT_ASSIGNED_CONTEXT" /\
  forall w, In w ["LENGTH_UNIT"; "PLANE_ANGLE_UNIT"; "SOLID_ANGLE_UNIT"]%string ->
    exists e, In e (fst (geometric_context_writer n)) /\ In (e_id e) (refs ctx) /\ says e w.
Proof.
  unfold geometric_context_writer. cbv zeta. cbn [fst snd]. eexists. split; [do 4 right; left; reflexivity|]. split; [reflexivity|]. split.
  { exists ")) "%string, "(("%string. cbn [e_body]. right. right. left. reflexivity. }
  intros w [<- |[<- |[<- |[]]]]; cbn [refs e_body flat_map app].
  - eexists. split; [left; reflexivity|]. split; [cbn [e_id]; cbn; auto|]. exists "( "%string, "() NAMED_UNIT(*) SI_UNIT(.MILLI.,.METRE.) )"%string. left. reflexivity.
  - eexists. split; [right; left; reflexivity|]. split; [cbn [e_id]; cbn; auto|]. exists "( NAMED_UNIT(*) "%string, "() SI_UNIT($,.RADIAN.) )"%string. left. reflexivity.
  - eexists. split; [right; right; left; reflexivity|]. split; [cbn [e_id]; cbn; auto 6|]. exists "( NAMED_UNIT(*) SI_UNIT($,.STERADIAN.) "%string, "() )"%string. left. reflexivity.
Qed.
