From Verif.Model Require Import StepText StepWrite.
From Verif.Spec Require Import StepFileSpec.
From Verif.Proofs Require Import StepWriteP StepModelP StepModelP2.
From Coq Require Import Lia.
Open Scope Z_scope.
Ltac refcase := intros e r He Hr; cbn in He; repeat (destruct He as [<-|He]; [cbn in Hr; cbn; tauto|]); destruct He.
Lemma product_writer_ids c name : let '(l, c') := product_writer c name in
  ids l = map (fun k => c + Z.of_nat k) (seq 1 7) /\ c' = c + 7 /\ forall e r, In e l -> In r (refs e) -> r = 2 \/ In r (ids l) \/ r = c' + 1.
Proof.
  unfold product_writer. split; [cbn; repeat (apply (f_equal2 (@cons Z)); [ring|]); reflexivity|]. split; [ring|].
  intros e r He Hr. cbn [In] in He. repeat (destruct He as [<-|He]; [cbn in Hr; cbn [ids map e_id In]; cbn; intuition (subst; auto 12)|]); destruct He.
Qed.
Lemma context_writer_ids c : let '(l, c') := geometric_context_writer c in
  ids l = map (fun k => c + Z.of_nat k) (seq 1 5) /\ c' = c + 5 /\ forall e r, In e l -> In r (refs e) -> In r (ids l).
Proof.
  unfold geometric_context_writer. split; [cbn; repeat (apply (f_equal2 (@cons Z)); [ring|]); reflexivity|]. split; [ring|].
  intros e r He Hr. cbn [In] in He. repeat (destruct He as [<-|He]; [cbn in Hr; cbn; intuition (subst; auto 12)|]); destruct He.
Qed.
Lemma assembly_writer_ids c rep pd crep cpd f0 f : let '(l, c') := assembly_definition_writer c (rep, pd) (crep, cpd) f0 f in
  ids l = map (fun k => c + Z.of_nat k) (seq 1 5) /\ c' = c + 5 /\ forall e r, In e l -> In r (refs e) -> In r (ids l) \/ In r [rep; pd; crep; cpd; f0; f].
Proof.
  unfold assembly_definition_writer. split; [cbn; repeat (apply (f_equal2 (@cons Z)); [ring|]); reflexivity|]. split; [ring|].
  intros e r He Hr. cbn [In] in He. repeat (destruct He as [<-|He]; [cbn in Hr; cbn; intuition (subst; auto 12)|]); destruct He.
Qed.
Lemma written_text l : l <> [] -> flat_map render_piece (id_pieces l) = step_ids_to_str l.
Proof.
  induction l as [|a [|b l] IH]; intros H; [congruence|cbn; rewrite app_nil_r; reflexivity|].
  change (id_pieces (a :: b :: l)) with (Ref a :: Lit "," :: id_pieces (b :: l)). cbn [flat_map]. rewrite IH by congruence. unfold step_ids_to_str. cbn [map join]. reflexivity.
Qed.

(** Concrete objects *)
Definition ex_p (s : string) := SPoint "" s.
Definition ex_v := SVector "" "0.0,0.0,1.0" "1.0".
Definition ex_f := SFrame "f" (ex_p "0.0,0.0,0.0") ex_v ex_v.
Definition ex_seg := LineSegment "s" (SLine "" (ex_p "0.0,0.0,0.0") ex_v) (ex_p "0.0,0.0,0.0") (ex_p "1000.0,0.0,0.0").
Definition ex_bsp := BSplineEdge "b" "1" [ex_p "0.0,0.0,0.0"; ex_p "1.0,0.0,0.0"] "(2,2),(0.0,1.0)" (ex_p "0.0,0.0,0.0") (ex_p "1.0,0.0,0.0").
Definition ex_face := SFace "a" (FrameSurface "PLANE" "" ex_f "") (SContour "" [ex_seg; ex_bsp]) [SContour "" [FullArc "" ex_f "1.0" (ex_p "1.0,0.0,0.0")]].
Definition ex_shell := SShell "box" true false true false "0.8,0.8,0.8" [ex_face; ex_face].
Definition ex_sphere := SShell "sphere" true false false false "0.8,0.8,0.8" [ex_face].
Definition ex_nested := PAssembly "outer" ex_f [ex_f] [PCompound "c" [ex_shell]].
Lemma nested_duplicates : exists p l, wf_primitive p /\ model_step [p] = Ok l /\ ~ unique_ids l.
Proof.
  exists ex_nested, (match model_step [ex_nested] with Ok l => l | Err _ => [] end). split.
  - cbn. repeat constructor; cbn; discriminate.
  - split; [vm_compute; reflexivity|]. unfold unique_ids. intros N.
    assert (H : forall (l : list Z), NoDup l -> List.length (nodup Z.eq_dec l) = List.length l) by (intros l Hl; rewrite nodup_fixed_point; auto).
    apply H in N. vm_compute in N. discriminate.
Qed.
Lemma sphere_refused : exists s, wf_shell s /\ s_closed s = true /\ model_step [PShell s] = Err ValueError.
Proof. exists ex_sphere. split; [repeat constructor; cbn; discriminate|]. split; reflexivity. Qed.
Lemma compound_drops : exists s t, wf_shell s /\ wf_shell t /\ s_faces t <> [] /\ model_step [PCompound "c" [s; t]] = model_step [PCompound "c" [s]].
Proof. exists ex_shell, ex_sphere. split; [repeat constructor; cbn; discriminate|]. split; [repeat constructor; cbn; discriminate|]. split; [discriminate|vm_compute; reflexivity]. Qed.
Lemma members_written ms : forall c, members_step ms c = members_step (written_members ms) c.
Proof.
  induction ms as [|s ms IH]; intros c; [reflexivity|]. rewrite written_cons. cbn [members_step]. destruct (s_plain_open s || s_plain_closed s) eqn:E; [|apply IH].
  cbn [members_step]. rewrite E. destruct (shell_step s c). rewrite IH. reflexivity.
Qed.
Lemma compound_written name ms c : primitive_step (PCompound name ms) c = primitive_step (PCompound name (written_members ms)) c.
Proof. cbn [primitive_step]. unfold compound_step. destruct (product_writer c name). destruct (frame_step OXYZ (z + 1)). rewrite members_written. reflexivity. Qed.
Lemma face_ids_dangling : exists s c, wf_shell s /\ c > 7 /\ let '(l, _, _) := shell_face_ids_step s c in ~ closed l.
Proof.
  exists ex_shell, 10. split; [repeat constructor; cbn; discriminate|]. split; [lia|].
  destruct (shell_face_ids_step ex_shell 10) as [[l i] is] eqn:E.
  assert (F : existsb (Z.eqb 7) (ids l) = false) by (replace l with (fst (fst (shell_face_ids_step ex_shell 10))) by (rewrite E; reflexivity); vm_compute; reflexivity).
  assert (X : exists e, In e l /\ In 7 (refs e)).
  { assert (Y : existsb (fun e => existsb (Z.eqb 7) (refs e)) l = true) by (replace l with (fst (fst (shell_face_ids_step ex_shell 10))) by (rewrite E; reflexivity); vm_compute; reflexivity).
    apply existsb_exists in Y as (e & He & Y). exists e. split; [assumption|]. apply existsb_exists in Y as (r & Hr & Y). apply Z.eqb_eq in Y. subst r. assumption. }
  intros C. destruct X as (e & He & Hr). pose proof (C e 7 He Hr) as H7. clear He. assert (existsb (Z.eqb 7) (ids l) = true) by (apply existsb_exists; exists 7; auto). congruence.
Qed.
Lemma vector2d_self v c : exists e, In e (fst (vector2d_step v c true)) /\ In (e_id e) (refs e).
Proof. unfold vector2d_step. cbn [fst]. eexists. split; [right; left; reflexivity|]. cbn. left. reflexivity. Qed.
Lemma vector2d_reuses v c : In c (ids (fst (vector2d_step v c true))).
Proof. left. reflexivity. Qed.
