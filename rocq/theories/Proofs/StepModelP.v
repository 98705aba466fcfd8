From Verif.Model Require Import StepText StepWrite.
From Verif.Spec Require Import StepFileSpec.
From Verif.Proofs Require Import StepWriteP.
From Coq Require Import Lia.
Open Scope Z_scope.

Definition H2 : entity := Entity 2 [Lit "APPLICATION_CONTEXT('core data for automotive mechanical design processes')"].
Ltac pinj E := repeat (apply pair_equal_spec in E as [E ?]); subst.

Lemma product_writer_spec c name l c' : product_writer c name = (l, c') ->
  c' = c + 7 /\ seg c c' l /\ (forall L, In 2 (ids L) -> incl l L -> In (c' + 1) (ids L) -> refs_in l L) /\ d_product l (c' + 1) (c' - 2) name /\ incl [c' - 4; c' - 2] (ids l).
Proof.
  unfold product_writer. intros E. apply pair_equal_spec in E as [<- <-].
  split; [lia|]. split; [repeat (apply seg_cons; [lia|]); apply seg_nil; lia|]. split.
  - intros L HT HL HN. assert (K : forall i b, In (Entity i b) _ -> In i (ids L)) by (intros i b Hi; eapply in_ids; apply HL; exact Hi).
    repeat apply refs_in_cons; try apply refs_in_nil; intros r Hr; cbn in Hr; repeat (destruct Hr as [Hr|Hr]; [subst r|]); try (destruct Hr); try assumption; try (eapply K; cbn; tauto).
  - split; [|intros x [<-|[<-|[]]]; cbn [ids map e_id In]; [right; right; left|right; right; right; right; left]; ring]. exists (c + 1 + 1 + 1), (c + 1 + 1 + 1 + 1), (c + 1 + 1 + 1 + 1 + 1 + 1), (c + 1 + 1 + 1 + 1 + 1 + 1 + 1), (c + 1 + 1), (c + 1).
    replace (c + 1 + 1 + 1 + 1 + 1 + 1 + 1 - 2) with (c + 1 + 1 + 1 + 1 + 1) by ring.
    unfold has. repeat split; cbn [In].
    + do 2 right. left. lits.
    + do 3 right. left. reflexivity.
    + do 4 right. left. reflexivity.
    + do 5 right. left. reflexivity.
    + do 6 right. left. reflexivity.
Qed.
Lemma context_spec c l c' : geometric_context_writer c = (l, c') -> c' = c + 5 /\ seg c c' l /\ closed l /\ In c' (ids l).
Proof.
  unfold geometric_context_writer. intros E. apply pair_equal_spec in E as [<- <-].
  split; [lia|]. split; [repeat (apply seg_cons; [lia|]); apply seg_nil; lia|]. split; [|cbn; tauto].
  unfold closed. change (refs_in (fst (geometric_context_writer c)) (fst (geometric_context_writer c))). unfold geometric_context_writer. cbn [fst].
  repeat apply refs_in_cons; try apply refs_in_nil; intros r Hr; cbn in Hr; repeat (destruct Hr as [Hr|Hr]; [subst r; cbn; tauto|]); destruct Hr.
Qed.
Lemma assembly_definition_spec c rep pd crep cpd f0 f l c' : assembly_definition_writer c (rep, pd) (crep, cpd) f0 f = (l, c') ->
  c' = c + 5 /\ seg c c' l /\ (forall L, incl l L -> incl [rep; pd; crep; cpd; f0; f] (ids L) -> refs_in l L) /\ d_occurrence l rep pd crep cpd f0 f.
Proof.
  unfold assembly_definition_writer. intros E. apply pair_equal_spec in E as [<- <-].
  split; [lia|]. split; [repeat (apply seg_cons; [lia|]); apply seg_nil; lia|]. split.
  - intros L HL HN. assert (K : forall i b, In (Entity i b) _ -> In i (ids L)) by (intros i b Hi; eapply in_ids; apply HL; exact Hi).
    repeat apply refs_in_cons; try apply refs_in_nil; intros r Hr; cbn in Hr; repeat (destruct Hr as [Hr|Hr]; [subst r|]); try (destruct Hr); try (eapply K; cbn; tauto); apply HN; cbn; tauto.
  - exists (c + 1), (c + 1 + 1), (c + 1 + 1 + 1), (c + 1 + 1 + 1 + 1), (c + 1 + 1 + 1 + 1 + 1). unfold has. repeat split; cbn [In]; tauto.
Qed.
Lemma styled_spec p : forall is i l j, styled_items is p i = (l, j) ->
  seg (i - 1) j l /\ (j = i - 1 \/ In j (ids l)) /\ (forall L, incl is (ids L) -> In p (ids L) -> refs_in l L).
Proof.
  induction is as [|a is IH]; intros i l j E; cbn in E.
  - apply pair_equal_spec in E as [<- <-]. split; [apply seg_nil; lia|]. split; [left; reflexivity|]. intros. apply refs_in_nil.
  - destruct (styled_items is p (i + 1)) as [l2 j2] eqn:E2. apply pair_equal_spec in E as [<- <-]. destruct (IH _ _ _ E2) as (S & J & R). split; [|split].
    + apply seg_cons; [lia|]. replace (i + 1 - 1) with i in S by ring. exact S.
    + right. cbn. destruct J as [-> | J]; [left; lia|right; assumption].
    + intros L HI HP. apply refs_in_cons; [|apply R; [intros x Hx; apply HI; right; assumption|assumption]].
      intros r Hr. cbn in Hr. destruct Hr as [<-|[<-|[]]]; [assumption|apply HI; left; reflexivity].
Qed.
Lemma shell_product_spec s c l c' rep pd : wf_shell s -> shell_product s c = (l, c', (rep, pd)) ->
  c < c' /\ seg c c' l /\ refs_in l (H2 :: l) /\ d_shell_product l rep pd s.
Proof.
  unfold shell_product. intros W. destruct (product_writer c (s_name s)) as [lp cp] eqn:Ep. destruct (frame_step OXYZ (cp + 1)) as [lf cf] eqn:Ef.
  destruct (faces_step (s_faces s) (cf + 1 + 1)) as [[lx is] cx] eqn:Ex. destruct (geometric_context_writer cx) as [lg cg] eqn:Eg.
  apply product_writer_spec in Ep as (Hp & Sp & Rp & Dp & Dpi). apply frame_step_spec in Ef as (Hf & Sf & Cf & Df). apply faces_step_spec in Ex as (Sx & Cx & Dx); [|exact W]. apply context_spec in Eg as (Hg & Sg & Cg & Ig).
  pose proof (d_frame_id _ _ _ Df) as If. pose proof (d_faces_incl _ _ _ Dx) as Ix. pose proof Sx as (Hx & _).
  set (P := cg + 1 + 1 + 1 + 1 + 1 + 1 + 1 + 1 + 1 + 1) in *.
  match goal with |- context [(if s_plain_open s then ?A else ?B)] => destruct (if s_plain_open s then A else B) as [ls cs] eqn:Es end.
  assert (St : seg P cs ls /\ (cs = P \/ In cs (ids ls)) /\ (forall L, incl is (ids L) -> In P (ids L) -> In (cf + 1) (ids L) -> refs_in ls L)).
  { destruct (s_plain_open s).
    - apply styled_spec in Es as (A & B & C). replace (P + 1 - 1) with P in * by ring. split; [exact A|]. split; [exact B|]. intros; apply C; assumption.
    - apply pair_equal_spec in Es as [<- <-]. split; [apply seg_one; lia|]. split; [right; left; reflexivity|]. intros L A B C. apply refs_in_one. intros r Hr. cbn in Hr. destruct Hr as [<-|[<-|[]]]; assumption. }
  destruct St as (Ss & Js & Rs). clear Es. pose proof Ss as (Hs & _).
  intros E. apply pair_equal_spec in E as [E E3]. apply pair_equal_spec in E as [E1 <-]. apply pair_equal_spec in E3 as [<- <-]. subst l.
  split; [unfold P in *; lia|]. split; [|split].
  - eapply seg_app; [exact Sp|]. apply seg_cons; [lia|]. eapply seg_app; [exact Sf|]. apply seg_cons'; rewrite manifold_entity_id; [lia|]. apply seg_cons'; rewrite shell_entity_id; [lia|].
    eapply seg_app; [exact Sx|]. eapply seg_app; [exact Sg|]. eapply (seg_app _ P); [unfold P; repeat (apply seg_cons; [lia|]); apply seg_nil; lia|]. eapply seg_app; [exact Ss|]. apply seg_one. lia.
  - match goal with |- refs_in ?l0 ?L0 => set (L := L0) end.
    assert (KP : incl lp L) by (unfold L; inc). assert (KF : incl lf L) by (unfold L; inc). assert (KX : incl lx L) by (unfold L; inc). assert (KG : incl lg L) by (unfold L; inc). assert (KS : incl ls L) by (unfold L; inc).
    assert (I2 : In 2 (ids L)) by (left; reflexivity). assert (IR : In (cp + 1) (ids L)) by (unfold L; known). assert (IM : In (cf + 1) (ids L)).
    { unfold L. right. unfold ids. rewrite map_app. apply in_or_app. right. right. rewrite map_app. apply in_or_app. right. left. apply manifold_entity_id. }
    assert (IS : In (cf + 1 + 1) (ids L)). { unfold L. right. unfold ids. rewrite map_app. apply in_or_app. right. right. rewrite map_app. apply in_or_app. right. right. left. apply shell_entity_id. }
    assert (Iff : In cf (ids L)) by (apply (ids_incl lf L KF); assumption). assert (Igg : In cg (ids L)) by (apply (ids_incl lg L KG); assumption).
    assert (Ixx : incl is (ids L)) by (intros x Hxx; apply (ids_incl lx L KX), Ix; assumption).
    assert (IPd : In (cp - 4) (ids L)) by (apply (ids_incl lp L KP), Dpi; left; reflexivity).
    assert (IPP : forall j, In j [cg + 1; cg + 1 + 1; cg + 1 + 1 + 1; cg + 1 + 1 + 1 + 1; cg + 1 + 1 + 1 + 1 + 1; cg + 1 + 1 + 1 + 1 + 1 + 1; cg + 1 + 1 + 1 + 1 + 1 + 1 + 1; cg + 1 + 1 + 1 + 1 + 1 + 1 + 1 + 1; cg + 1 + 1 + 1 + 1 + 1 + 1 + 1 + 1 + 1; P] -> In j (ids L)).
    { intros j Hj. unfold L. unfold ids. repeat (rewrite ?map_app; cbn [map e_id]). repeat (rewrite ?in_app_iff; cbn [In]). cbn [In] in Hj. unfold P in Hj |- *. tauto. }
    assert (Ics : In cs (ids L)). { destruct Js as [-> | Js]; [apply IPP; cbn; tauto|apply (ids_incl ls L KS); exact Js]. }
    assert (One : forall e, (forall r, In r (refs e) -> In r (ids L)) -> refs_in [e] L) by (intros; apply refs_in_cons'; [assumption|apply refs_in_nil]).
    apply refs_in_app; [apply Rp; assumption|]. apply refs_in_cons; [intros r Hr; cbn in Hr; destruct Hr as [<-|[<-|[<-|[]]]]; assumption|].
    apply refs_in_app; [exact (refs_in_mono _ _ _ KF Cf)|]. apply refs_in_cons'; [apply manifold_entity_refs; assumption|]. apply refs_in_cons'; [apply shell_entity_refs; assumption|].
    apply refs_in_app; [exact (refs_in_mono _ _ _ KX Cx)|]. apply refs_in_app; [exact (refs_in_mono _ _ _ KG Cg)|]. apply refs_in_app.
    { repeat apply refs_in_cons; try apply refs_in_nil; intros r Hr; cbn in Hr; repeat (destruct Hr as [Hr|Hr]; [subst r|]); try (destruct Hr); try assumption; apply IPP; cbn; tauto. }
    apply refs_in_app; [apply Rs; [assumption|apply IPP; cbn; tauto|assumption]|].
    apply refs_in_one. intros r Hr. cbn in Hr. destruct Hr as [<-|[<-|[]]]; assumption.
  - match goal with |- d_shell_product ?L0 _ _ _ => set (L := L0) end.
    assert (KP : incl lp L) by (unfold L; inc). assert (KX : incl lx L) by (unfold L; inc). assert (KG : incl lg L) by (unfold L; inc).
    split; [exact (d_product_mono _ _ _ _ _ KP Dp)|]. exists cf, (cf + 1), cg. split; [unfold has, L; apply in_or_app; right; left; reflexivity|].
    split; [|apply (ids_incl lg L KG); assumption].
    apply (manifold_spec L s (cf + 1) (cf + 1 + 1) is); [unfold L; apply in_or_app; right; right; apply in_or_app; right; left; reflexivity|unfold L; apply in_or_app; right; right; apply in_or_app; right; right; left; reflexivity|].
    eapply Forall2_mono; [|exact Dx]. intros i a Ha; exact (d_face_mono _ _ _ _ KX Ha).
Qed.
