From Verif.Model Require Import StepText StepWrite.
From Verif.Spec Require Import StepFileSpec.
From Verif.Proofs Require Import StepWriteP StepModelP.
From Coq Require Import Lia.
Open Scope Z_scope.
Lemma Ok_inj {A} (x y : A) : Ok x = Ok y -> x = y. Proof. congruence. Qed.

Lemma incl_appl' {A} (a b c : list A) : incl a c -> incl a (c ++ b). Proof. intros H x Hx. apply in_or_app. left. auto. Qed.
Lemma incl_appr' {A} (a b c : list A) : incl a c -> incl a (b ++ c). Proof. intros H x Hx. apply in_or_app. right. auto. Qed.
Lemma incl_tl' {A} (a c : list A) y : incl a c -> incl a (y :: c). Proof. intros H x Hx. right. auto. Qed.
Ltac incs := first [apply incl_refl | apply incl_tl'; incs | apply incl_appl'; solve [incs] | apply incl_appr'; solve [incs]].

Lemma written_cons s ms : written_members (s :: ms) = if s_plain_open s || s_plain_closed s then s :: written_members ms else written_members ms.
Proof. reflexivity. Qed.
Lemma members_step_spec ms : forall c l is c', Forall wf_shell ms -> members_step ms c = (l, is, c') -> seg c c' l /\ closed l /\ Forall2 (d_manifold l) is (written_members ms).
Proof.
  induction ms as [|s ms IH]; intros c l is c' W E; cbn [members_step] in E.
  - apply pair_equal_spec in E as [E <-]. apply pair_equal_spec in E as [<- <-]. split; [apply seg_nil; lia|]. split; [intros e r []|constructor].
  - inversion W as [|? ? W1 W2]; subst. rewrite written_cons. destruct (s_plain_open s || s_plain_closed s); [|apply IH; assumption].
    destruct (shell_step s c) as [l1 c1] eqn:E1. destruct (members_step ms c1) as [[l2 is2] c2] eqn:E2. apply pair_equal_spec in E as [E <-]. apply pair_equal_spec in E as [<- <-].
    apply shell_step_spec in E1 as (H1 & S1 & C1 & D1); [|assumption]. apply IH in E2 as (S2 & C2 & D2); [|assumption].
    assert (K1 : incl l1 (l1 ++ l2)) by (apply incl_appl, incl_refl). assert (K2 : incl l2 (l1 ++ l2)) by (apply incl_appr, incl_refl).
    split; [eapply seg_app; eassumption|]. split; [apply refs_in_app; [exact (refs_in_mono _ _ _ K1 C1)|exact (refs_in_mono _ _ _ K2 C2)]|].
    constructor; [exact (d_manifold_mono _ _ _ _ K1 D1)|]. eapply Forall2_mono; [|exact D2]. intros i a Ha. exact (d_manifold_mono _ _ _ _ K2 Ha).
Qed.
Lemma frames_step_spec fs : forall c l is c', frames_step fs c = (l, is, c') -> seg c c' l /\ closed l /\ Forall2 (d_frame l) is fs.
Proof.
  induction fs as [|s fs IH]; intros c l is c' E; cbn [frames_step] in E.
  - apply pair_equal_spec in E as [E <-]. apply pair_equal_spec in E as [<- <-]. split; [apply seg_nil; lia|]. split; [intros e r []|constructor].
  - destruct (frame_step s (c + 1)) as [l1 c1] eqn:E1. destruct (frames_step fs c1) as [[l2 is2] c2] eqn:E2. apply pair_equal_spec in E as [E <-]. apply pair_equal_spec in E as [<- <-].
    apply frame_step_spec in E1 as (H1 & S1 & C1 & D1). apply IH in E2 as (S2 & C2 & D2).
    assert (K1 : incl l1 (l1 ++ l2)) by (apply incl_appl, incl_refl). assert (K2 : incl l2 (l1 ++ l2)) by (apply incl_appr, incl_refl).
    split; [apply (seg_app _ c1); [apply (seg_weak _ _ _ _ _ S1); lia|exact S2]|]. split; [apply refs_in_app; [exact (refs_in_mono _ _ _ K1 C1)|exact (refs_in_mono _ _ _ K2 C2)]|].
    constructor; [exact (d_frame_mono _ _ _ _ K1 D1)|]. eapply Forall2_mono; [|exact D2]. intros i a Ha. exact (d_frame_mono _ _ _ _ K2 Ha).
Qed.
Lemma compound_spec name ms c l c' rep pd : Forall wf_shell ms -> compound_step name ms c = (l, c', (rep, pd)) ->
  c < c' /\ seg c c' l /\ refs_in l (H2 :: l) /\ d_compound l rep pd name ms.
Proof.
  unfold compound_step. intros W. destruct (product_writer c name) as [lp cp] eqn:Ep. destruct (frame_step OXYZ (cp + 1)) as [lf cf] eqn:Ef.
  destruct (members_step ms cf) as [[lx is] cx] eqn:Ex. destruct (geometric_context_writer cx) as [lg cg] eqn:Eg.
  apply product_writer_spec in Ep as (Hp & Sp & Rp & Dp & Dpi). apply frame_step_spec in Ef as (Hf & Sf & Cf & Df). apply members_step_spec in Ex as (Sx & Cx & Dx); [|exact W]. apply context_spec in Eg as (Hg & Sg & Cg & Ig).
  pose proof Sx as (Hx & _). intros E. apply pair_equal_spec in E as [E E3]. apply pair_equal_spec in E as [E1 <-]. apply pair_equal_spec in E3 as [<- <-]. subst l. rewrite id_pieces_comma.
  assert (Ix : incl is (ids lx)) by (eapply Forall2_ids; [|exact Dx]; intros; eapply d_manifold_id; eassumption).
  match goal with |- _ /\ seg _ _ ?l0 /\ _ => set (L := l0) end.
  assert (KP : incl lp L) by (unfold L; incs). assert (KF : incl lf L) by (unfold L; incs). assert (KX : incl lx L) by (unfold L; incs). assert (KG : incl lg L) by (unfold L; incs).
  assert (IR : In (cp + 1) (ids L)) by (unfold L; rewrite ids_app; apply in_or_app; right; left; reflexivity).
  split; [lia|]. split; [|split].
  - unfold L. eapply seg_app; [exact Sp|]. apply seg_cons; [lia|]. eapply seg_app; [exact Sf|]. eapply seg_app; [exact Sx|exact Sg].
  - assert (KL : incl L (H2 :: L)) by (apply incl_tl, incl_refl). assert (M : forall i, In i (ids L) -> In i (ids (H2 :: L))) by (apply ids_incl; exact KL).
    unfold L at 1. apply refs_in_app; [apply Rp; [left; reflexivity|eapply incl_tran; eassumption|apply M; assumption]|].
    apply refs_in_cons. { intros r. rewrite refs_mid. cbn. rewrite in_app_iff. cbn. intros [Hr|[<-|[]]]; apply M; [apply (ids_incl lx L KX), Ix; assumption|apply (ids_incl lg L KG); assumption]. }
    apply refs_in_app; [exact (refs_in_mono _ _ _ (incl_tran KF KL) Cf)|]. apply refs_in_app; [exact (refs_in_mono _ _ _ (incl_tran KX KL) Cx)|exact (refs_in_mono _ _ _ (incl_tran KG KL) Cg)].
  - split; [exact (d_product_mono _ _ _ _ _ KP Dp)|]. exists is, cg. split; [unfold has, L; apply in_or_app; right; left; reflexivity|]. split; [|apply (ids_incl lg L KG); assumption].
    eapply Forall2_mono; [|exact Dx]. intros i a Ha. exact (d_manifold_mono _ _ _ _ KX Ha).
Qed.
Lemma assembly_product_spec name f ps c l c' rep pd is : assembly_product name f ps c = (l, c', (rep, pd), is) ->
  c < c' /\ seg c c' l /\ refs_in l (H2 :: l) /\ d_product l rep pd name /\ In rep (ids l) /\ In pd (ids l) /\
  exists f0 fs ctx, is = f0 :: fs /\ has l rep (Lit "SHAPE_REPRESENTATION('',(" :: comma_refs (f0 :: fs) ++ [Lit "),"; Ref ctx; Lit ")"])%list /\ d_frame l f0 f /\ Forall2 (d_frame l) fs ps.
Proof.
  unfold assembly_product. destruct (product_writer c name) as [lp cp] eqn:Ep. destruct (frames_step (f :: ps) (cp + 1)) as [[lx is2] cx] eqn:Ex. destruct (geometric_context_writer cx) as [lg cg] eqn:Eg.
  apply product_writer_spec in Ep as (Hp & Sp & Rp & Dp & Dpi). apply frames_step_spec in Ex as (Sx & Cx & Dx). apply context_spec in Eg as (Hg & Sg & Cg & Ig).
  pose proof Sx as (Hx & _). intros E. apply pair_equal_spec in E as [E <-]. apply pair_equal_spec in E as [E E3]. apply pair_equal_spec in E as [E1 <-]. apply pair_equal_spec in E3 as [<- <-]. subst l. rewrite id_pieces_comma.
  assert (Ix : incl is2 (ids lx)) by (eapply Forall2_ids; [|exact Dx]; intros; eapply d_frame_id; eassumption).
  match goal with |- _ /\ seg _ _ ?l0 /\ _ => set (L := l0) end.
  assert (KP : incl lp L) by (unfold L; incs). assert (KX : incl lx L) by (unfold L; incs). assert (KG : incl lg L) by (unfold L; incs).
  assert (IR : In (cp + 1) (ids L)) by (unfold L; rewrite ids_app; apply in_or_app; right; left; reflexivity).
  split; [lia|]. split; [|split; [|split; [|split; [|split]]]].
  - unfold L. eapply seg_app; [exact Sp|]. apply seg_cons; [lia|]. eapply seg_app; [exact Sx|exact Sg].
  - assert (KL : incl L (H2 :: L)) by (apply incl_tl, incl_refl). assert (M : forall i, In i (ids L) -> In i (ids (H2 :: L))) by (apply ids_incl; exact KL).
    unfold L at 1. apply refs_in_app; [apply Rp; [left; reflexivity|eapply incl_tran; eassumption|apply M; assumption]|].
    apply refs_in_cons. { intros r. rewrite refs_mid. cbn. rewrite in_app_iff. cbn. intros [Hr|[<-|[]]]; apply M; [apply (ids_incl lx L KX), Ix; assumption|apply (ids_incl lg L KG); assumption]. }
    apply refs_in_app; [exact (refs_in_mono _ _ _ (incl_tran KX KL) Cx)|exact (refs_in_mono _ _ _ (incl_tran KG KL) Cg)].
  - exact (d_product_mono _ _ _ _ _ KP Dp).
  - assumption.
  - apply (ids_incl lp L KP), Dpi. right. left. reflexivity.
  - inversion Dx as [|f0 ? fs ? D1 D2]; subst. exists f0, fs, (cx + 5). split; [reflexivity|]. split; [unfold has, L; apply in_or_app; right; left; reflexivity|].
    split; [exact (d_frame_mono _ _ _ _ KX D1)|]. eapply Forall2_mono; [|exact D2]. intros i a Ha. exact (d_frame_mono _ _ _ _ KX Ha).
Qed.

(** Consistency and ranges for contents that may repeat lines. *)
Definition pre (c c' : Z) (l : list entity) : Prop := c <= c' /\ within c c' l /\ consistent l.
Lemma within_app a b c l1 l2 : within a b l1 -> within b c l2 -> a <= b -> b <= c -> within a c (l1 ++ l2).
Proof. intros H1 H2 A B i. rewrite ids_app, in_app_iff. intros [H|H]; [apply H1 in H|apply H2 in H]; lia. Qed.
Lemma pre_app a b c l1 l2 : pre a b l1 -> pre b c l2 -> pre a c (l1 ++ l2).
Proof.
  intros (A1 & W1 & C1) (A2 & W2 & C2). split; [lia|]. split; [eapply within_app; eassumption|].
  intros x y Hx Hy E. apply in_app_or in Hx, Hy. destruct Hx as [Hx|Hx], Hy as [Hy|Hy]; [apply C1; assumption| | |apply C2; assumption];
  pose proof (in_map e_id _ _ Hx) as Ix; pose proof (in_map e_id _ _ Hy) as Iy; rewrite E in Ix; [apply W1 in Ix; apply W2 in Iy|apply W2 in Ix; apply W1 in Iy]; lia.
Qed.
Lemma pre_dup a b l : pre a b l -> pre a b (l ++ l).
Proof.
  intros (A & W & C). split; [assumption|]. split.
  - intros i. rewrite ids_app, in_app_iff. intros [H|H]; apply W; assumption.
  - intros x y Hx Hy. apply in_app_or in Hx, Hy. apply C; tauto.
Qed.
Lemma nodup_consistent l : NoDup (ids l) -> consistent l.
Proof.
  induction l as [|a l IH]; intros N e1 e2 H1 H2 E; [destruct H1|]. cbn in N. inversion N as [|? ? N1 N2]; subst. destruct H1 as [<-|H1], H2 as [<-|H2]; [reflexivity| | |apply (IH N2); assumption]; exfalso; apply N1.
  - rewrite E. apply (in_map e_id). assumption.
  - rewrite <- E. apply (in_map e_id). assumption.
Qed.
Lemma seg_pre c c' l : seg c c' l -> pre c c' l.
Proof. intros (A & N & W). split; [assumption|]. split; [|apply nodup_consistent; assumption]. exact W. Qed.

(** the loop of Assembly.to_step as a function *)
Fixpoint comps (data : Z * Z) (frame_ids : list Z) (l : list sprimitive) (i : nat) (current_id : Z) : res (list entity * Z) :=
  match l with
  | [] => Ok ([], current_id)
  | q :: r =>
    do (content, current_id, primitive_data) <- primitive_step q current_id;
    do assembly_frame_id <- getz frame_ids 0;
    do component_frame_id <- getz frame_ids (i + 1);
    let '(assembly_content, current_id) := assembly_definition_writer current_id data primitive_data assembly_frame_id component_frame_id in
    do (rest, last_id) <- comps data frame_ids r (S i) current_id;
    Ok ((if is_product q then content ++ assembly_content ++ rest else content ++ content ++ assembly_content ++ rest)%list, last_id)
  end.
Lemma assembly_eq name f ps qs c : primitive_step (PAssembly name f ps qs) c =
  let '(product_content, current_id, data, frame_ids) := assembly_product name f ps c in
  do (content, current_id) <- comps data frame_ids qs O current_id;
  Ok ((product_content ++ content)%list, current_id, data).
Proof.
  cbn [primitive_step]. destruct (assembly_product name f ps c) as [[[pc ci] data] fi].
  match goal with |- bind (?g qs O ci) _ = _ => assert (E : forall l i k, g l i k = comps data fi l i k); [|rewrite E; reflexivity] end.
  induction l as [|q r IH]; intros i k; [reflexivity|]. cbn [comps]. destruct (primitive_step q k) as [[[a b] d]|]; [|reflexivity]. cbn [bind].
  destruct (getz fi 0); [|reflexivity]. cbn [bind]. destruct (getz fi (i + 1)); [|reflexivity]. cbn [bind]. destruct (assembly_definition_writer _ _ _ _ _) as [x y]. rewrite IH. reflexivity.
Qed.
Section prim_ind.
  Variable P : sprimitive -> Prop.
  Hypothesis Hs : forall s, P (PShell s).
  Hypothesis Hc : forall n ms, P (PCompound n ms).
  Hypothesis Ha : forall n f ps qs, Forall P qs -> P (PAssembly n f ps qs).
  Fixpoint prim_ind (p : sprimitive) : P p :=
    match p with
    | PShell s => Hs s | PCompound n ms => Hc n ms
    | PAssembly n f ps qs => Ha n f ps qs ((fix all l : Forall P l := match l with [] => Forall_nil _ | q :: r => Forall_cons _ (prim_ind q) (all r) end) qs)
    end.
End prim_ind.
Lemma wf_assembly n f ps qs : wf_primitive (PAssembly n f ps qs) -> Forall wf_primitive qs.
Proof. cbn. induction qs as [|q qs IH]; [constructor|]. intros [A B]. constructor; auto. Qed.
Lemma d_product_pd l rep pd n : d_product l rep pd n -> In pd (ids l).
Proof. intros (? & ? & ? & ? & ? & ? & _ & _ & A & _). eapply in_ids; eassumption. Qed.
Lemma d_primitive_ids l rep pd p : d_primitive l rep pd p -> In rep (ids l) /\ In pd (ids l).
Proof.
  destruct 1 as [rep pd s (A & f & m & x & B & _)|rep pd n ms (A & f & m & B & _)|rep pd n f ps qs f0 fs ctx A B _ _ _]; (split; [eapply in_ids; exact B|eapply d_product_pd; exact A]).
Qed.
Lemma getz_ok l i x : getz l i = Ok x -> nth_error l i = Some x.
Proof. unfold getz. destruct (nth_error l i); [|discriminate]. intros E. apply Ok_inj in E. subst. reflexivity. Qed.
Definition prim_good (p : sprimitive) : Prop := forall c l c' rep pd, wf_primitive p -> primitive_step p c = Ok (l, c', (rep, pd)) ->
  c < c' /\ pre c c' l /\ refs_in l (H2 :: l) /\ d_primitive l rep pd p.
Lemma comps_spec rep pd (l0 : list entity) f0 : forall qs, Forall prim_good qs -> Forall wf_primitive qs -> forall fs k i c l c', List.length k = S i ->
  incl (rep :: pd :: f0 :: fs) (ids l0) -> nth_error k 0 = Some f0 ->
  comps (rep, pd) (k ++ fs) qs i c = Ok (l, c') ->
  c <= c' /\ pre c c' l /\ (forall L, incl (H2 :: l0) L -> incl l L -> refs_in l L) /\ (forall L, incl l L -> d_components L rep pd f0 fs qs).
Proof.
  intros qs G. induction G as [|q qs G1 _ IH]; intros W fs k i c l c' Hk HI H0 E; cbn [comps] in E.
  - apply Ok_inj in E. apply pair_equal_spec in E as [<- <-]. split; [lia|]. split; [apply seg_pre, seg_nil; lia|]. split; [intros; apply refs_in_nil|intros; constructor].
  - inversion W as [|? ? W1 W2]; subst. destruct (primitive_step q c) as [[[lq cq] [crep cpd]]|] eqn:Eq; [|discriminate]. cbn [bind] in E.
    destruct (getz (k ++ fs) 0) as [g0|] eqn:E0; [|discriminate]. cbn [bind] in E. destruct (getz (k ++ fs) (i + 1)) as [g|] eqn:Ei; [|discriminate]. cbn [bind] in E.
    apply getz_ok in E0, Ei. rewrite nth_error_app1 in E0 by lia. rewrite H0 in E0. apply (f_equal (fun o => match o with Some x => x | None => f0 end)) in E0. subst g0.
    rewrite nth_error_app2 in Ei by lia. replace (i + 1 - List.length k)%nat with 0%nat in Ei by lia. destruct fs as [|f1 fs]; [discriminate|]. cbn in Ei. apply (f_equal (fun o => match o with Some x => x | None => f0 end)) in Ei. subst g.
    destruct (assembly_definition_writer cq (rep, pd) (crep, cpd) f0 f1) as [la ca] eqn:Ea. destruct (comps (rep, pd) (k ++ f1 :: fs) qs (S i) ca) as [[lr cr]|] eqn:Er; [|discriminate]. cbn [bind] in E.
    apply Ok_inj in E. apply pair_equal_spec in E as [El <-].
    destruct (G1 _ _ _ _ _ W1 Eq) as (A1 & A2 & A3 & A4). apply assembly_definition_spec in Ea as (B1 & B2 & B3 & B4).
    replace (k ++ f1 :: fs)%list with ((k ++ [f1]) ++ fs)%list in Er by (rewrite <- app_assoc; reflexivity).
    destruct (IH W2 fs (k ++ [f1])%list (S i) ca lr cr) as (C1 & C2 & C3 & C4); [rewrite app_length; cbn; lia| | |exact Er|].
    { intros x Hx. apply HI. cbn in Hx |- *. tauto. }
    { destruct k; [discriminate|exact H0]. }
    destruct (d_primitive_ids _ _ _ _ A4) as [I1 I2].
    assert (Kq : incl lq l) by (subst l; destruct (is_product q); incs). assert (Ka : incl la l) by (subst l; destruct (is_product q); incs). assert (Kr : incl lr l) by (subst l; destruct (is_product q); incs).
    split; [lia|]. split; [|split].
    + assert (Pt : pre cq cr (la ++ lr)) by (eapply pre_app; [apply seg_pre; exact B2|exact C2]). subst l. destruct (is_product q); [eapply pre_app; [exact A2|exact Pt]|]. rewrite app_assoc. eapply pre_app; [apply pre_dup; exact A2|exact Pt].
    + intros L HL Hl. assert (Rq : refs_in lq L). { eapply refs_in_mono; [|exact A3]. intros x [<-|Hx]; [apply HL; left; reflexivity|apply Hl, Kq; assumption]. }
      assert (Ra : refs_in la L). { apply B3; [eapply incl_tran; eassumption|]. intros x Hx. assert (incl (ids l0) (ids L)) as M by (apply ids_incl; intros z Hz; apply HL; right; assumption).
        cbn in Hx. destruct Hx as [<-|[<-|[<-|[<-|[<-|[<-|[]]]]]]]; try (apply M, HI; cbn; tauto); apply (ids_incl lq L); try (eapply incl_tran; eassumption); assumption. }
      assert (Rr : refs_in lr L) by (apply C3; [assumption|eapply incl_tran; eassumption]).
      subst l. destruct (is_product q); repeat apply refs_in_app; assumption.
    + intros L Hl. apply d_comp_cons with crep cpd; [exact (d_primitive_mono _ _ (incl_tran Kq Hl) _ _ _ A4)|exact (d_occurrence_mono _ _ _ _ _ _ _ _ (incl_tran Ka Hl) B4)|apply C4; eapply incl_tran; eassumption].
Qed.
Lemma primitive_spec p : prim_good p.
Proof.
  induction p as [s|n ms|n f ps qs IH] using prim_ind; intros c l c' rep pd W E.
  - cbn [primitive_step] in E. destruct (is_product (PShell s)); [|discriminate]. apply Ok_inj in E. apply shell_product_spec in E as (A & B & C & D); [|exact W]. split; [assumption|]. split; [apply seg_pre; assumption|]. split; [assumption|]. constructor. assumption.
  - cbn [primitive_step] in E. apply Ok_inj in E. apply compound_spec in E as (A & B & C & D); [|exact W]. split; [assumption|]. split; [apply seg_pre; assumption|]. split; [assumption|]. constructor. assumption.
  - rewrite assembly_eq in E. destruct (assembly_product n f ps c) as [[[l0 c0] [r0 p0]] fi] eqn:Ea. destruct (comps (r0, p0) fi qs 0 c0) as [[l1 c1]|] eqn:Ec; [|discriminate]. cbn [bind] in E.
    apply Ok_inj in E. apply pair_equal_spec in E as [E E3]. apply pair_equal_spec in E as [<- <-]. apply pair_equal_spec in E3 as [<- <-].
    apply assembly_product_spec in Ea as (A1 & A2 & A3 & A4 & A5 & A6 & f0 & fs & ctx & -> & A7 & A8 & A9).
    apply (comps_spec r0 p0 l0 f0 qs IH (wf_assembly _ _ _ _ W) fs [f0] 0 c0 l1 c1) in Ec as (B1 & B2 & B3 & B4); [|reflexivity| |reflexivity].
    + assert (K0 : incl l0 (l0 ++ l1)) by incs. assert (K1 : incl l1 (l0 ++ l1)) by incs. split; [lia|]. split; [eapply pre_app; [apply seg_pre; exact A2|exact B2]|]. split.
      * apply refs_in_app; [eapply refs_in_mono; [|exact A3]|apply B3]; [| |incs]; (intros x [<-|Hx]; [left; reflexivity|right; apply K0; assumption]).
      * apply d_prim_assembly with f0 fs ctx; [exact (d_product_mono _ _ _ _ _ K0 A4)|exact (has_mono _ _ _ _ K0 A7)|exact (d_frame_mono _ _ _ _ K0 A8)| |apply B4; assumption].
        eapply Forall2_mono; [|exact A9]. intros i a Ha. exact (d_frame_mono _ _ _ _ K0 Ha).
    + intros x [<-|[<-|[<-|Hx]]]; [assumption|assumption|eapply d_frame_id; exact A8|]. revert Hx. apply (Forall2_ids (d_frame l0) l0 fs ps); [|exact A9]. intros; eapply d_frame_id; eassumption.
Qed.
Lemma primitives_spec ps : forall c l c', Forall wf_primitive ps -> primitives_step ps c = Ok (l, c') ->
  c <= c' /\ pre c c' l /\ refs_in l (H2 :: l) /\ Forall (fun p => exists rep pd, d_primitive l rep pd p) ps.
Proof.
  induction ps as [|p ps IH]; intros c l c' W E; cbn [primitives_step] in E.
  - apply Ok_inj in E. apply pair_equal_spec in E as [<- <-]. split; [lia|]. split; [apply seg_pre, seg_nil; lia|]. split; [apply refs_in_nil|constructor].
  - inversion W as [|? ? W1 W2]; subst. destruct (primitive_step p c) as [[[l1 c1] [rep pd]]|] eqn:E1; [|discriminate]. cbn [bind] in E. destruct (primitives_step ps c1) as [[l2 c2]|] eqn:E2; [|discriminate]. cbn [bind] in E.
    apply Ok_inj in E. apply pair_equal_spec in E as [<- <-]. apply primitive_spec in E1 as (A1 & A2 & A3 & A4); [|assumption]. apply IH in E2 as (B1 & B2 & B3 & B4); [|assumption].
    assert (K0 : incl l1 (l1 ++ l2)) by incs. assert (K1 : incl l2 (l1 ++ l2)) by incs. split; [lia|]. split; [eapply pre_app; eassumption|]. split.
    + apply refs_in_app; [eapply refs_in_mono; [|exact A3]|eapply refs_in_mono; [|exact B3]]; (intros x [<-|Hx]; [left; reflexivity|right; auto]).
    + constructor; [exists rep, pd; exact (d_primitive_mono _ _ K0 _ _ _ A4)|]. eapply Forall_impl; [|exact B4]. intros q (r & d & D). exists r, d. exact (d_primitive_mono _ _ K1 _ _ _ D).
Qed.
Theorem model_export ps l : Forall wf_primitive ps -> model_step ps = Ok l ->
  closed l /\ consistent l /\ Forall (fun p => exists rep pd, d_primitive l rep pd p) ps.
Proof.
  unfold model_step. intros W E. destruct (primitives_step ps 2) as [[l1 c1]|] eqn:E1; [|discriminate]. cbn [bind] in E. apply Ok_inj in E. subst l.
  apply primitives_spec in E1 as (A1 & A2 & A3 & A4); [|assumption]. split; [|split].
  - change (refs_in (header_entities ++ l1) (header_entities ++ l1)). apply refs_in_app; [|eapply refs_in_mono; [|exact A3]].
    + unfold header_entities. cbn [app]. repeat apply refs_in_cons; try apply refs_in_nil; intros r Hr; cbn in Hr; repeat (destruct Hr as [Hr|Hr]; [subst r; cbn; tauto|]); destruct Hr.
    + intros x [<-|Hx]; [right; left; reflexivity|right; right; exact Hx].
  - apply (pre_app 0 2 c1); [|exact A2]. apply seg_pre. unfold header_entities. repeat (apply seg_cons; [lia|]). apply seg_nil. lia.
  - eapply Forall_impl; [|exact A4]. intros q (r & d & D). exists r, d. eapply d_primitive_mono; [|exact D]. apply incl_appr, incl_refl.
Qed.
(** Unique identifiers *)
Lemma comps_seg data fi : forall qs i c l c', Forall (fun q => match q with PShell s => wf_shell s | _ => False end) qs -> comps data fi qs i c = Ok (l, c') -> seg c c' l.
Proof.
  induction qs as [|q qs IH]; intros i c l c' W E; cbn [comps] in E.
  - apply Ok_inj in E. apply pair_equal_spec in E as [<- <-]. apply seg_nil. lia.
  - inversion W as [|? ? W1 W2]; subst. destruct q as [s| |]; try contradiction. destruct (primitive_step (PShell s) c) as [[[lq cq] [crep cpd]]|] eqn:Eq; [|discriminate]. cbn [bind] in E.
    destruct (getz fi 0) as [g0|] eqn:E0; [|discriminate]. cbn [bind] in E. destruct (getz fi (i + 1)) as [g|] eqn:Ei; [|discriminate]. cbn [bind] in E.
    destruct data as [rep pd]. destruct (assembly_definition_writer cq (rep, pd) (crep, cpd) g0 g) as [la ca] eqn:Ea. destruct (comps (rep, pd) fi qs (S i) ca) as [[lr cr]|] eqn:Er; [|discriminate]. cbn [bind] in E.
    apply Ok_inj in E. apply pair_equal_spec in E as [<- <-]. apply assembly_definition_spec in Ea as (_ & B2 & _). apply IH in Er; [|assumption].
    cbn [primitive_step] in Eq. destruct (is_product (PShell s)); [|discriminate]. apply Ok_inj in Eq. apply shell_product_spec in Eq as (_ & A & _); [|assumption].
    eapply seg_app; [exact A|]. eapply seg_app; [exact B2|exact Er].
Qed.
Lemma primitive_seg p c l c' d : wf_primitive p -> flat_primitive p -> primitive_step p c = Ok (l, c', d) -> seg c c' l.
Proof.
  destruct d as [rep pd]. destruct p as [s|n ms|n f ps qs]; intros W F E.
  - cbn [primitive_step] in E. destruct (is_product (PShell s)); [|discriminate]. apply Ok_inj in E. apply shell_product_spec in E as (A & B & C & D); assumption.
  - cbn [primitive_step] in E. apply Ok_inj in E. apply compound_spec in E as (A & B & C & D); assumption.
  - rewrite assembly_eq in E. destruct (assembly_product n f ps c) as [[[l0 c0] [r0 p0]] fi] eqn:Ea. destruct (comps (r0, p0) fi qs 0 c0) as [[l1 c1]|] eqn:Ec; [|discriminate]. cbn [bind] in E.
    apply Ok_inj in E. apply pair_equal_spec in E as [E E3]. apply pair_equal_spec in E as [<- <-]. apply assembly_product_spec in Ea as (_ & A & _). apply comps_seg in Ec; [eapply seg_app; eassumption|].
    apply wf_assembly in W. cbn in F. clear - W F. induction F as [|q qs F1 F2 IH]; inversion W; subst; constructor; auto. destruct q; [assumption|destruct F1|destruct F1].
Qed.
Theorem model_unique ps l : Forall wf_primitive ps -> Forall flat_primitive ps -> model_step ps = Ok l -> unique_ids l.
Proof.
  unfold model_step. intros W F E. destruct (primitives_step ps 2) as [[l1 c1]|] eqn:E1; [|discriminate]. cbn [bind] in E. apply Ok_inj in E. subst l.
  assert (S : seg 2 c1 l1).
  { assert (G : forall l1 c1 c, primitives_step ps c = Ok (l1, c1) -> seg c c1 l1); [clear l1 c1 E1|apply G; exact E1].
    induction ps as [|p ps IH]; intros l1 c1 c E1; cbn [primitives_step] in E1.
    - apply Ok_inj in E1. apply pair_equal_spec in E1 as [<- <-]. apply seg_nil. lia.
    - inversion W; subst. inversion F; subst. destruct (primitive_step p c) as [[[l2 c2] d]|] eqn:E2; [|discriminate]. cbn [bind] in E1. destruct (primitives_step ps c2) as [[l3 c3]|] eqn:E3; [|discriminate]. cbn [bind] in E1.
      apply Ok_inj in E1. apply pair_equal_spec in E1 as [<- <-]. apply primitive_seg in E2; [|assumption|assumption]. eapply seg_app; [exact E2|]. apply IH; assumption. }
  assert (T : seg 0 c1 (header_entities ++ l1)). { eapply seg_app; [|exact S]. unfold header_entities. repeat (apply seg_cons; [lia|]). apply seg_nil. lia. }
  destruct T as (_ & N & _). exact N.
Qed.
(** The export succeeds exactly on the exportable models. *)
Lemma frames_len fs : forall c l is c', frames_step fs c = (l, is, c') -> List.length is = List.length fs.
Proof. intros c l is c' E. apply frames_step_spec in E as (_ & _ & D). induction D; cbn; congruence. Qed.
Lemma export_assembly n f ps qs : exportable (PAssembly n f ps qs) <-> (List.length qs <= List.length ps)%nat /\ Forall exportable qs.
Proof.
  cbn [exportable]. assert (E : (fix all l := match l with [] => True | q :: r => exportable q /\ all r end) qs <-> Forall exportable qs); [|rewrite E; reflexivity].
  induction qs as [|q qs IH]; [split; [constructor|trivial]|]. rewrite IH. split; [intros []; constructor; assumption|intros H; inversion H; auto].
Qed.
Lemma primitive_ok p : (exportable p <-> exists c x, primitive_step p c = Ok x) /\ (exportable p -> forall c, exists x, primitive_step p c = Ok x).
Proof.
  induction p as [s|n ms|n f ps qs IH] using prim_ind.
  - cbn [exportable primitive_step is_product]. destruct (s_plain_open s || s_plain_closed s || s_has_shell_faces s); split; [split| |split|]; intros H; try discriminate; try (exists 0; eexists; reflexivity); try reflexivity; try (intros c; eexists; reflexivity). destruct H as (? & ? & ?). discriminate.
  - split; [split; [intros _; exists 0; eexists; reflexivity|intros _; exact I]|intros _ c; eexists; reflexivity].
  - rewrite export_assembly.
    assert (K : forall data fi i c, (List.length qs <= List.length fi - S i)%nat -> (S i <= List.length fi)%nat -> Forall exportable qs -> exists x, comps data fi qs i c = Ok x).
    { intros data fi i c Hl Hi F. revert i c Hl Hi. induction qs as [|q qs IHq]; intros i c Hl Hi; cbn [comps]; [eexists; reflexivity|].
      inversion IH as [|? ? [_ I1] I2]; subst. inversion F as [|? ? F1 F2]; subst. destruct (I1 F1 c) as [[[lq cq] d] ->]. cbn [bind]. cbn in Hl.
      unfold getz at 1. destruct (nth_error fi 0) as [g0|] eqn:E0; [|apply nth_error_None in E0; lia]. cbn [bind]. unfold getz. destruct (nth_error fi (i + 1)) as [g1|] eqn:E1; [|apply nth_error_None in E1; lia]. cbn [bind].
      destruct (assembly_definition_writer cq data d g0 g1) as [la ca]. destruct (IHq I2 F2 (S i) ca) as [[lr cr] ->]; [lia|lia|]. cbn [bind]. eexists; reflexivity. }
    assert (K2 : forall data fi i c x, comps data fi qs i c = Ok x -> (i + List.length qs <= List.length fi - 1 \/ qs = [])%nat /\ Forall exportable qs).
    { clear K. intros data fi i c x E. revert i c x E. induction qs as [|q qs IHq]; intros i c x E; cbn [comps] in E; [split; [right; reflexivity|constructor]|].
      inversion IH as [|? ? [I1 _] I2]; subst. destruct (primitive_step q c) as [[[lq cq] d]|] eqn:Eq; [|discriminate]. cbn [bind] in E.
      destruct (getz fi 0) as [g0|] eqn:E0; [|discriminate]. cbn [bind] in E. destruct (getz fi (i + 1)) as [g|] eqn:Ei; [|discriminate]. cbn [bind] in E. destruct (assembly_definition_writer cq data d g0 g) as [la ca].
      destruct (comps data fi qs (S i) ca) as [y|] eqn:Er; [|discriminate]. apply IHq in Er as [Hl Hf]; [|assumption]. apply getz_ok in Ei. assert (i + 1 < List.length fi)%nat by (apply nth_error_Some; congruence).
      split; [left; cbn; destruct Hl as [Hl | ->]; [lia|cbn; lia]|]. constructor; [|assumption]. apply I1. eexists; eexists; exact Eq. }
    assert (L : forall c l0 c0 d0 fi, assembly_product n f ps c = (l0, c0, d0, fi) -> List.length fi = S (List.length ps)).
    { intros c l0 c0 d0 fi E. unfold assembly_product in E. destruct (product_writer c n) as [lp cp]. destruct (frames_step (f :: ps) (cp + 1)) as [[lx is] cx] eqn:Ex. destruct (geometric_context_writer cx). apply pair_equal_spec in E as [_ <-]. apply frames_len in Ex. exact Ex. }
    assert (F : (List.length qs <= List.length ps)%nat /\ Forall exportable qs -> forall c, exists x, primitive_step (PAssembly n f ps qs) c = Ok x).
    { intros [A B] c. rewrite assembly_eq. destruct (assembly_product n f ps c) as [[[l0 c0] d0] fi] eqn:Ea. apply L in Ea. destruct (K d0 fi O c0) as [[l1 c1] ->]; [lia|lia|assumption|]. cbn [bind]. eexists; reflexivity. }
    split; [split|exact F].
    + intros H. exists 0. apply F. exact H.
    + intros (c & x & E). rewrite assembly_eq in E. destruct (assembly_product n f ps c) as [[[l0 c0] d0] fi] eqn:Ea. apply L in Ea. destruct (comps d0 fi qs 0 c0) as [y|] eqn:Ec; [|discriminate]. apply K2 in Ec as [[Hl|Hl] Hf]; split; try assumption; [lia|subst qs; cbn; lia].
Qed.
Theorem model_ok ps : (exists l, model_step ps = Ok l) <-> Forall exportable ps.
Proof.
  unfold model_step. assert (H : forall c, (exists x, primitives_step ps c = Ok x) <-> Forall exportable ps).
  { induction ps as [|p ps IH]; intros c; cbn [primitives_step]; [split; [constructor|intros _; eexists; reflexivity]|]. destruct (primitive_ok p) as [[A1 A2] B]. split.
    - intros [x E]. destruct (primitive_step p c) as [[[l1 c1] d]|] eqn:E1; [|discriminate]. cbn [bind] in E. destruct (primitives_step ps c1) as [y|] eqn:E2; [|discriminate]. constructor; [apply A2; eexists; eexists; exact E1|]. apply (IH c1). eexists; exact E2.
    - intros F. inversion F as [|? ? F1 F2]; subst. destruct (B F1 c) as [[[l1 c1] d] ->]. cbn [bind]. destruct (proj2 (IH c1) F2) as [[l2 c2] ->]. cbn [bind]. eexists; reflexivity. }
  rewrite <- (H 2). split.
  - intros [l E]. destruct (primitives_step ps 2) as [y|]; [eexists; reflexivity|discriminate].
  - intros [[l c] ->]. cbn [bind]. eexists; reflexivity.
Qed.
