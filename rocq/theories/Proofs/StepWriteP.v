From Verif.Model Require Import StepText StepWrite.
From Verif.Spec Require Import StepFileSpec.
From Coq Require Import Lia.
Open Scope Z_scope.

Lemma sapp_assoc a b c : ((a ++ b) ++ c)%string = (a ++ b ++ c)%string.
Proof. induction a as [|x a IH]; [reflexivity|]. cbn. f_equal. exact IH. Qed.
Ltac lits := unfold kw, quote; rewrite ?sapp_assoc; reflexivity.

(** ** Ranges of identifiers *)
Definition seg (c c' : Z) (l : list entity) : Prop := c <= c' /\ NoDup (ids l) /\ within c c' l.
Lemma ids_app l1 l2 : ids (l1 ++ l2) = (ids l1 ++ ids l2)%list. Proof. apply map_app. Qed.
Lemma nodup_app {A} (a b : list A) : NoDup a -> NoDup b -> (forall x, In x a -> In x b -> False) -> NoDup (a ++ b).
Proof.
  intros Ha Hb H. induction Ha as [|x a N Ha IH]; [assumption|]. cbn. constructor.
  - intros Y. apply in_app_or in Y. destruct Y as [Y|Y]; [contradiction|]. apply (H x); [left; reflexivity|assumption].
  - apply IH. intros y Hy. apply H. right. assumption.
Qed.
Lemma seg_nil c c' : c <= c' -> seg c c' [].
Proof. intros H. split; [assumption|]. split; [constructor|]. intros i []. Qed.
Lemma seg_app c c1 c2 l1 l2 : seg c c1 l1 -> seg c1 c2 l2 -> seg c c2 (l1 ++ l2).
Proof.
  intros (A & B & C) (D & E & F). split; [lia|]. split.
  - rewrite ids_app. apply nodup_app; [assumption|assumption|]. intros x H1 H2. apply C in H1. apply F in H2. lia.
  - intros i Hi. rewrite ids_app in Hi. apply in_app_or in Hi. destruct Hi as [Hi|Hi]; [apply C in Hi|apply F in Hi]; lia.
Qed.
Lemma seg_one c c' i b : c < i <= c' -> seg c c' [Entity i b].
Proof. intros H. split; [lia|]. split; [cbn; constructor; [intros []|constructor]|]. intros j [<-|[]]. cbn. lia. Qed.
Lemma seg_cons c c' i b l : c < i -> seg i c' l -> seg c c' (Entity i b :: l).
Proof. intros H S. pose proof S as (A & _). apply (seg_app c i c' [Entity i b] l); [apply seg_one; lia|assumption]. Qed.
Lemma seg_weak a b c c' l : seg c c' l -> a <= c -> c' <= b -> seg a b l.
Proof. intros (A & B & C) H H'. split; [lia|]. split; [assumption|]. intros i Hi. apply C in Hi. lia. Qed.

Lemma in_ids i b l : In (Entity i b) l -> In i (ids l). Proof. intros H. apply (in_map e_id) in H. exact H. Qed.
Lemma ids_incl l L : incl l L -> incl (ids l) (ids L). Proof. apply incl_map. Qed.
Lemma has_mono l L i b : incl l L -> has l i b -> has L i b. Proof. intros H. apply H. Qed.

(** references *)
Definition refs_in (l L : list entity) : Prop := forall e r, In e l -> In r (refs e) -> In r (ids L).
Lemma refs_in_app l1 l2 L : refs_in l1 L -> refs_in l2 L -> refs_in (l1 ++ l2) L.
Proof. intros A B e r H. apply in_app_or in H. destruct H; [apply A|apply B]; assumption. Qed.
Lemma refs_in_one i b L : (forall r, In r (refs (Entity i b)) -> In r (ids L)) -> refs_in [Entity i b] L.
Proof. intros A e r [<-|[]]. apply A. Qed.
Lemma refs_in_cons i b l L : (forall r, In r (refs (Entity i b)) -> In r (ids L)) -> refs_in l L -> refs_in (Entity i b :: l) L.
Proof. intros A B e r [<-|H]; [apply A|apply B; assumption]. Qed.
Lemma refs_in_nil L : refs_in [] L. Proof. intros e r []. Qed.
Lemma refs_in_mono l L L' : incl L L' -> refs_in l L -> refs_in l L'.
Proof. intros H A e r He Hr. apply (ids_incl L L' H). eapply A; eassumption. Qed.
Lemma id_pieces_comma l : id_pieces l = comma_refs l.
Proof. induction l as [|a [|b l] IH]; [reflexivity|reflexivity|]. cbn [id_pieces comma_refs] in *. rewrite IH. reflexivity. Qed.
Lemma table_pieces_comma l : table_pieces l = comma_rows l.
Proof. induction l as [|a [|b l] IH]; [reflexivity| |]; cbn [table_pieces comma_rows] in *; rewrite ?id_pieces_comma, ?IH; reflexivity. Qed.
Definition prefs (b : list piece) : list Z := refs (Entity 0 b).
Lemma prefs_app a b : prefs (a ++ b) = (prefs a ++ prefs b)%list.
Proof. unfold prefs, refs. cbn. apply flat_map_app. Qed.
Lemma prefs_comma l : prefs (comma_refs l) = l.
Proof. induction l as [|a [|b l] IH]; [reflexivity|reflexivity|]. unfold prefs, refs in *. cbn [comma_refs e_body flat_map app] in *. rewrite IH. reflexivity. Qed.
Lemma comma_rows_one a : comma_rows [a] = ([Lit "("] ++ comma_refs a ++ [Lit ")"])%list. Proof. reflexivity. Qed.
Lemma comma_rows_cons a b l : comma_rows (a :: b :: l) = ([Lit "("] ++ comma_refs a ++ [Lit "),"] ++ comma_rows (b :: l))%list. Proof. reflexivity. Qed.
Lemma prefs_rows l : prefs (comma_rows l) = concat l.
Proof.
  induction l as [|a [|b l] IH]; [reflexivity| |].
  - rewrite comma_rows_one, !prefs_app, prefs_comma. reflexivity.
  - rewrite comma_rows_cons, !prefs_app, prefs_comma, IH. reflexivity.
Qed.
Lemma refs_mid i a l b : refs (Entity i (a :: comma_refs l ++ b)) = (prefs [a] ++ l ++ prefs b)%list.
Proof. change (refs (Entity i (a :: comma_refs l ++ b))) with (prefs ([a] ++ comma_refs l ++ b)). rewrite !prefs_app, prefs_comma. reflexivity. Qed.

(** ** monotonicity of the denotations *)
Ltac mono := intros; repeat match goal with
  | H : exists _, _ |- _ => destruct H
  | H : _ /\ _ |- _ => destruct H
  end; repeat eexists; eauto using has_mono.
Lemma d_point_mono l L i p : incl l L -> d_point l i p -> d_point L i p. Proof. apply has_mono. Qed.
Lemma d_direction_mono l L i p : incl l L -> d_direction l i p -> d_direction L i p. Proof. apply has_mono. Qed.
Lemma d_vertex_mono l L i p : incl l L -> d_vertex l i p -> d_vertex L i p.
Proof. intros H (j & A & B). exists j. split; [eapply has_mono|eapply d_point_mono]; eassumption. Qed.
Lemma d_vector_mono l L i p : incl l L -> d_vector l i p -> d_vector L i p.
Proof. intros H (j & A & B). exists j. split; [eapply has_mono|eapply d_direction_mono]; eassumption. Qed.
Lemma d_frame_mono l L i f : incl l L -> d_frame l i f -> d_frame L i f.
Proof. intros H (o & w & u & A & B & C & D). exists o, w, u. split; [eapply has_mono; eassumption|]. split; [eapply d_point_mono; eassumption|]. split; eapply d_direction_mono; eassumption. Qed.
Lemma d_line_mono l L i f : incl l L -> d_line l i f -> d_line L i f.
Proof. intros H (p & v & A & B & C). exists p, v. split; [eapply has_mono; eassumption|]. split; [eapply d_point_mono|eapply d_vector_mono]; eassumption. Qed.
Lemma d_circle_mono l L i s n f r : incl l L -> d_circle l i s n f r -> d_circle L i s n f r.
Proof. intros H (a & A & B). exists a. split; [eapply has_mono|eapply d_frame_mono]; eassumption. Qed.
Lemma d_edge_curve_mono l L i n s e (P Q : Z -> Prop) : incl l L -> (forall k, P k -> Q k) -> d_edge_curve l i n s e P -> d_edge_curve L i n s e Q.
Proof. intros H PQ (a & b & k & A & B & C & D). exists a, b, k. split; [eapply has_mono; eassumption|]. split; [eapply d_vertex_mono; eassumption|]. split; [eapply d_vertex_mono; eassumption|apply PQ; assumption]. Qed.
Lemma Forall2_mono {A B} (P Q : A -> B -> Prop) l1 l2 : (forall a b, P a b -> Q a b) -> Forall2 P l1 l2 -> Forall2 Q l1 l2.
Proof. intros H F. induction F; constructor; auto. Qed.
Lemma d_bspline_mono l L n d k ps i : incl l L -> d_bspline l n d k ps i -> d_bspline L n d k ps i.
Proof. intros H (is & A & B). exists is. split; [eapply has_mono; eassumption|]. eapply Forall2_mono; [|eassumption]. intros a b. apply d_point_mono. assumption. Qed.
Lemma d_edge_mono l L i e : incl l L -> d_edge l i e -> d_edge L i e.
Proof.
  intros H. destruct e; cbn; apply d_edge_curve_mono; try assumption; intros k.
  - apply d_line_mono; assumption.
  - apply d_circle_mono; assumption.
  - apply d_circle_mono; assumption.
  - apply d_bspline_mono; assumption.
Qed.
Lemma d_curve_mono l L i e : incl l L -> d_curve l i e -> d_curve L i e.
Proof. intros H. destruct e; cbn; [apply d_edge_mono|apply d_line_mono|apply d_circle_mono]; assumption. Qed.
Lemma d_surface_mono l L i s : incl l L -> d_surface l i s -> d_surface L i s.
Proof.
  intros H. destruct s; cbn.
  - intros (f & A & B). exists f. split; [eapply has_mono|eapply d_frame_mono]; eassumption.
  - intros (c & v & A & B & C). exists c, v. split; [eapply has_mono; eassumption|]. split; [eapply d_curve_mono|eapply d_direction_mono]; eassumption.
  - intros (c & a & p & v & A & B & C & D & E). exists c, a, p, v. split; [eapply has_mono; eassumption|]. split; [eapply d_curve_mono; eassumption|]. split; [eapply has_mono; eassumption|].
    split; [eapply d_point_mono|eapply d_direction_mono]; eassumption.
  - intros (is & A & B). exists is. split; [eapply has_mono; eassumption|]. eapply Forall2_mono; [|eassumption]. intros a b F. eapply Forall2_mono; [|eassumption]. intros x y. apply d_point_mono. assumption.
Qed.
Lemma d_contour_mono l L i k : incl l L -> d_contour l i k -> d_contour L i k.
Proof.
  intros H (is & A & B). exists is. split; [eapply has_mono; eassumption|]. eapply Forall2_mono; [|eassumption]. intros a b (j & C & D). exists j. split; [eapply has_mono|eapply d_edge_mono]; eassumption.
Qed.
Lemma d_face_mono l L i a : incl l L -> d_face l i a -> d_face L i a.
Proof.
  intros H (s & ob & o & ib & A & B & C & D & E). exists s, ob, o, ib. split; [eapply has_mono; eassumption|]. split; [eapply d_surface_mono; eassumption|]. split; [eapply has_mono; eassumption|].
  split; [eapply d_contour_mono; eassumption|]. eapply Forall2_mono; [|eassumption]. intros x y (b & X & Y). exists b. split; [eapply has_mono|eapply d_contour_mono]; eassumption.
Qed.
Lemma d_shell_mono l L i s : incl l L -> d_shell l i s -> d_shell L i s.
Proof. intros H (is & A & B). exists is. split; [eapply has_mono; eassumption|]. eapply Forall2_mono; [|eassumption]. intros x y. apply d_face_mono. assumption. Qed.
Lemma d_manifold_mono l L i s : incl l L -> d_manifold l i s -> d_manifold L i s.
Proof. intros H (j & A & B). exists j. split; [eapply d_shell_mono; eassumption|]. destruct (s_closed s); eapply has_mono; eassumption. Qed.
Lemma d_product_mono l L rep pd n : incl l L -> d_product l rep pd n -> d_product L rep pd n.
Proof. intros H (p & f & ds & sdr & ctx & dctx & A & B & C & D & E). exists p, f, ds, sdr, ctx, dctx. repeat split; eapply has_mono; eassumption. Qed.
Lemma d_shell_product_mono l L rep pd s : incl l L -> d_shell_product l rep pd s -> d_shell_product L rep pd s.
Proof.
  intros H (A & f & m & ctx & B & C & D). split; [eapply d_product_mono; eassumption|]. exists f, m, ctx. split; [eapply has_mono; eassumption|]. split; [eapply d_manifold_mono; eassumption|]. eapply ids_incl; eassumption.
Qed.
Lemma d_compound_mono l L rep pd n ms : incl l L -> d_compound l rep pd n ms -> d_compound L rep pd n ms.
Proof.
  intros H (A & is & ctx & B & C & D). split; [eapply d_product_mono; eassumption|]. exists is, ctx. split; [eapply has_mono; eassumption|]. split; [|eapply ids_incl; eassumption].
  eapply Forall2_mono; [|eassumption]. intros x y. apply d_manifold_mono. assumption.
Qed.
Lemma d_occurrence_mono l L a b c d e f : incl l L -> d_occurrence l a b c d e f -> d_occurrence L a b c d e f.
Proof. intros H (cd & rr & it & ds & oc & A & B & C & D & E). exists cd, rr, it, ds, oc. repeat split; eapply has_mono; eassumption. Qed.
Scheme d_primitive_ind2 := Induction for d_primitive Sort Prop with d_components_ind2 := Induction for d_components Sort Prop.
Lemma d_primitive_mono l L : incl l L -> forall rep pd p, d_primitive l rep pd p -> d_primitive L rep pd p.
Proof.
  intros H. apply (d_primitive_ind2 l (fun rep pd p _ => d_primitive L rep pd p) (fun rep pd f0 fs qs _ => d_components L rep pd f0 fs qs)); intros.
  - apply d_prim_shell. eapply d_shell_product_mono; eassumption.
  - apply d_prim_compound. eapply d_compound_mono; eassumption.
  - eapply d_prim_assembly; [eapply d_product_mono; eassumption|eapply has_mono; eassumption|eapply d_frame_mono; eassumption| |eassumption].
    eapply Forall2_mono; [|eassumption]. intros x y. apply d_frame_mono. assumption.
  - constructor.
  - econstructor; [eassumption|eapply d_occurrence_mono; eassumption|assumption].
Qed.
Lemma d_components_mono l L : incl l L -> forall rep pd f0 fs p, d_components l rep pd f0 fs p -> d_components L rep pd f0 fs p.
Proof.
  intros H rep pd f0 fs p D. induction D; econstructor; [eapply d_primitive_mono; eassumption|eapply d_occurrence_mono; eassumption|assumption].
Qed.

(** defined identifiers *)
Lemma d_point_id l i p : d_point l i p -> In i (ids l). Proof. apply in_ids. Qed.
Lemma d_direction_id l i p : d_direction l i p -> In i (ids l). Proof. apply in_ids. Qed.
Lemma d_vertex_id l i p : d_vertex l i p -> In i (ids l). Proof. intros (j & A & _). eapply in_ids; eassumption. Qed.
Lemma d_vector_id l i p : d_vector l i p -> In i (ids l). Proof. intros (j & A & _). eapply in_ids; eassumption. Qed.
Lemma d_frame_id l i p : d_frame l i p -> In i (ids l). Proof. intros (? & ? & ? & A & _). eapply in_ids; eassumption. Qed.
Lemma d_line_id l i p : d_line l i p -> In i (ids l). Proof. intros (? & ? & A & _). eapply in_ids; eassumption. Qed.
Lemma d_circle_id l i s n f r : d_circle l i s n f r -> In i (ids l). Proof. intros (? & A & _). eapply in_ids; eassumption. Qed.
Lemma d_edge_id l i e : d_edge l i e -> In i (ids l). Proof. destruct e; intros (? & ? & ? & A & _); eapply in_ids; eassumption. Qed.
Lemma d_curve_id l i e : d_curve l i e -> In i (ids l). Proof. destruct e; cbn; [apply d_edge_id|apply d_line_id|apply d_circle_id]. Qed.
Lemma d_surface_id l i s : d_surface l i s -> In i (ids l).
Proof. destruct s; cbn; [intros (? & A & _)|intros (? & ? & A & _)|intros (? & ? & ? & ? & A & _)|intros (? & A & _)]; eapply in_ids; eassumption. Qed.
Lemma d_contour_id l i k : d_contour l i k -> In i (ids l). Proof. intros (? & A & _). eapply in_ids; eassumption. Qed.
Lemma d_face_id l i a : d_face l i a -> In i (ids l). Proof. intros (? & ? & ? & ? & A & _). eapply in_ids; eassumption. Qed.
Lemma d_shell_id l i s : d_shell l i s -> In i (ids l). Proof. intros (? & A & _). eapply in_ids; eassumption. Qed.
Lemma d_manifold_id l i s : d_manifold l i s -> In i (ids l). Proof. intros (? & _ & A). destruct (s_closed s); eapply in_ids; eassumption. Qed.
Lemma Forall2_ids {B} (P : Z -> B -> Prop) l is (xs : list B) : (forall i x, P i x -> In i (ids l)) -> Forall2 P is xs -> incl is (ids l).
Proof. intros H F. induction F; [intros x []|]. intros j [<-|Hj]; [eapply H; eassumption|apply IHF; assumption]. Qed.

(** ** writers *)
Ltac isin := match goal with |- In ?e ?L => cbn [app]; repeat (rewrite ?in_app_iff; cbn [In]); tauto end.

Lemma point_step_spec p c l c' : point_step p c false = (l, c') -> c < c' /\ seg c c' l /\ closed l /\ d_point l c' p.
Proof.
  unfold point_step. intros E. injection E as <- <-. split; [lia|]. split; [apply seg_one; lia|]. split.
  - intros e r [<-|[]] [].
  - left. lits.
Qed.
Ltac inc := let x := fresh in let H := fresh in intros x H; repeat (rewrite ?in_app_iff; cbn [In]); tauto.
Ltac known := unfold ids in *; repeat progress (rewrite ?map_app; cbn [map e_id]); repeat (rewrite ?in_app_iff; cbn [In]); tauto.
Ltac refsub C := eapply refs_in_mono; [|exact C]; inc.
Ltac refone := let r := fresh "r" in let Hr := fresh "Hr" in intros r Hr; cbn in Hr; repeat (destruct Hr as [Hr|Hr]; [subst r; known|]); destruct Hr.
Ltac herehas := repeat (rewrite ?in_app_iff; cbn [In]); repeat first [left; solve [repeat f_equal; lits] | right].

Lemma vertex_step_spec p c l c' : point_step p c true = (l, c') -> c < c' /\ seg c c' l /\ closed l /\ d_vertex l c' p.
Proof.
  unfold point_step. intros E. injection E as <- <-. split; [lia|]. split; [apply seg_cons; [lia|apply seg_one; lia]|]. split.
  - apply refs_in_cons; [refone|]. apply refs_in_one. refone.
  - exists (c + 1). split; [right; left; lits|left; lits].
Qed.
Lemma direction_step_spec p c l c' : vector_step p c false = (l, c') -> c < c' /\ seg c c' l /\ closed l /\ d_direction l c' p.
Proof.
  unfold vector_step. intros E. injection E as <- <-. split; [lia|]. split; [apply seg_one; lia|]. split.
  - intros e r [<-|[]] [].
  - left. lits.
Qed.
Lemma vector_step_spec p c l c' : vector_step p c true = (l, c') -> c < c' /\ seg c c' l /\ closed l /\ d_vector l c' p.
Proof.
  unfold vector_step. intros E. injection E as <- <-. split; [lia|]. split; [apply seg_cons; [lia|apply seg_one; lia]|]. split.
  - apply refs_in_cons; [refone|]. apply refs_in_one. refone.
  - exists (c + 1). split; [right; left; lits|left; lits].
Qed.
Lemma frame_step_spec f c l c' : frame_step f c = (l, c') -> c < c' /\ seg c c' l /\ closed l /\ d_frame l c' f.
Proof.
  unfold frame_step. destruct (point_step (f_origin f) c false) as [l1 i1] eqn:E1. destruct (vector_step (f_w f) i1 false) as [l2 i2] eqn:E2. destruct (vector_step (f_u f) i2 false) as [l3 i3] eqn:E3.
  intros E. injection E as <- <-. apply point_step_spec in E1 as (H1 & S1 & C1 & D1). apply direction_step_spec in E2 as (H2 & S2 & C2 & D2). apply direction_step_spec in E3 as (H3 & S3 & C3 & D3).
  pose proof (d_point_id _ _ _ D1) as I1. pose proof (d_direction_id _ _ _ D2) as I2. pose proof (d_direction_id _ _ _ D3) as I3.
  split; [lia|]. split; [|split].
  - eapply seg_app; [eassumption|]. eapply seg_app; [eassumption|]. eapply seg_app; [eassumption|]. apply seg_one. lia.
  - apply refs_in_app; [refsub C1|]. apply refs_in_app; [refsub C2|]. apply refs_in_app; [refsub C3|]. apply refs_in_one. refone.
  - exists i1, i2, i3. split; [|split; [|split]].
    + unfold has. rewrite !in_app_iff. right. right. right. left. lits.
    + eapply d_point_mono; [|exact D1]. inc.
    + eapply d_direction_mono; [|exact D2]. inc.
    + eapply d_direction_mono; [|exact D3]. inc.
Qed.
Lemma line_step_spec s c l c' : line_step s c = (l, c') -> c < c' /\ seg c c' l /\ closed l /\ d_line l c' s.
Proof.
  unfold line_step. destruct (point_step (l_point1 s) c false) as [l1 i1] eqn:E1. destruct (vector_step (l_dir s) i1 true) as [l2 i2] eqn:E2.
  intros E. injection E as <- <-. apply point_step_spec in E1 as (H1 & S1 & C1 & D1). apply vector_step_spec in E2 as (H2 & S2 & C2 & D2).
  pose proof (d_point_id _ _ _ D1) as I1. pose proof (d_vector_id _ _ _ D2) as I2.
  split; [lia|]. split; [|split].
  - eapply seg_app; [eassumption|]. eapply seg_app; [eassumption|]. apply seg_one. lia.
  - apply refs_in_app; [refsub C1|]. apply refs_in_app; [refsub C2|]. apply refs_in_one. refone.
  - exists i1, i2. split; [|split].
    + unfold has. rewrite !in_app_iff. right. right. left. lits.
    + eapply d_point_mono; [|exact D1]. inc.
    + eapply d_vector_mono; [|exact D2]. inc.
Qed.
Lemma circle_step_spec n f r c l c' : circle_step n f r c = (l, c') -> c < c' /\ seg c c' l /\ closed l /\ d_circle l c' "" n f r.
Proof.
  unfold circle_step. destruct (frame_step f c) as [l1 i1] eqn:E1.
  intros E. injection E as <- <-. apply frame_step_spec in E1 as (H1 & S1 & C1 & D1).
  pose proof (d_frame_id _ _ _ D1) as I1.
  split; [lia|]. split; [|split].
  - eapply seg_app; [eassumption|]. apply seg_one. lia.
  - apply refs_in_app; [refsub C1|]. apply refs_in_one. refone.
  - exists i1. split.
    + unfold has. rewrite !in_app_iff. right. left. unfold d_circle. lits.
    + eapply d_frame_mono; [|exact D1]. inc.
Qed.
Lemma points_step_spec ps : forall c l is c', points_step ps c = (l, is, c') -> (ps <> [] -> c < c') /\ (seg c (c' - 1) l /\ c < c' \/ ps = [] /\ l = [] /\ c' = c) /\ closed l /\ Forall2 (d_point l) is ps.
Proof.
  induction ps as [|p ps IH]; intros c l is c' E; cbn in E.
  - injection E as <- <- <-. split; [congruence|]. split; [right; auto|]. split; [intros e r []|constructor].
  - set (pl := [Entity (c + 1) [Lit ("CARTESIAN_POINT(" ++ quote (p_name p) ++ ",(" ++ p_xyz p ++ "))")]]) in *.
    destruct (points_step ps (c + 1 + 1)) as [[l2 is2] c2] eqn:E2. injection E as <- <- <-.
    destruct (IH _ _ _ _ E2) as (H2 & S2 & C2 & D2). clear IH E2.
    destruct (point_step_spec p c pl (c + 1) eq_refl) as (H1 & S1 & C1 & D1).
    assert (G : c + 2 <= c2). { destruct S2 as [[(A & _) B]|(-> & -> & ->)]; lia. }
    split; [lia|]. split; [left; split; [|lia]|split].
    + change (seg c (c2 - 1) (pl ++ l2)). eapply seg_app; [exact S1|]. destruct S2 as [[S2 B]|(-> & -> & ->)]; [eapply seg_weak; [exact S2|lia|lia]|apply seg_nil; lia].
    + change (closed (pl ++ l2)). apply refs_in_app; [refsub C1|refsub C2].
    + change (Forall2 (d_point (pl ++ l2)) (c + 1 :: is2) (p :: ps)). constructor; [eapply d_point_mono; [|exact D1]; inc|].
      eapply Forall2_mono; [|exact D2]. intros a b. apply d_point_mono. inc.
Qed.
Lemma edge_curve_refs n i a b k L : In a (ids L) -> In b (ids L) -> In k (ids L) -> refs_in [edge_curve n i a b k] L.
Proof. intros A B C. apply refs_in_one. intros r Hr. cbn in Hr. destruct Hr as [<-|[<-|[<-|[]]]]; assumption. Qed.
Lemma edge_step_spec e c l c' : wf_edge e -> edge_step e c = (l, c') -> c < c' /\ seg c c' l /\ closed l /\ d_edge l c' e.
Proof.
  intros W. destruct e as [n s a b|n f r a b|n f r a|n d ps k a b]; cbn [edge_step].
  - destruct (line_step s c) as [l1 i1] eqn:E1. destruct (point_step a i1 true) as [l2 i2] eqn:E2. destruct (point_step b i2 true) as [l3 i3] eqn:E3. intros E. injection E as <- <-.
    apply line_step_spec in E1 as (H1 & S1 & C1 & D1). apply vertex_step_spec in E2 as (H2 & S2 & C2 & D2). apply vertex_step_spec in E3 as (H3 & S3 & C3 & D3).
    pose proof (d_line_id _ _ _ D1) as I1. pose proof (d_vertex_id _ _ _ D2) as I2. pose proof (d_vertex_id _ _ _ D3) as I3.
    split; [lia|]. split; [|split].
    + eapply seg_app; [eassumption|]. eapply seg_app; [eassumption|]. eapply seg_app; [eassumption|]. apply seg_one. lia.
    + apply refs_in_app; [refsub C1|]. apply refs_in_app; [refsub C2|]. apply refs_in_app; [refsub C3|]. apply edge_curve_refs; known.
    + exists i2, i3, i1. split; [|split; [|split]].
      * unfold has. rewrite !in_app_iff. right. right. right. left. unfold edge_curve. lits.
      * eapply d_vertex_mono; [|exact D2]. inc.
      * eapply d_vertex_mono; [|exact D3]. inc.
      * eapply d_line_mono; [|exact D1]. inc.
  - destruct (frame_step f c) as [l1 i1] eqn:E1. destruct (point_step a (i1 + 1) true) as [l2 i2] eqn:E2. destruct (point_step b i2 true) as [l3 i3] eqn:E3. intros E. injection E as <- <-.
    apply frame_step_spec in E1 as (H1 & S1 & C1 & D1). apply vertex_step_spec in E2 as (H2 & S2 & C2 & D2). apply vertex_step_spec in E3 as (H3 & S3 & C3 & D3).
    pose proof (d_frame_id _ _ _ D1) as I1. pose proof (d_vertex_id _ _ _ D2) as I2. pose proof (d_vertex_id _ _ _ D3) as I3.
    split; [lia|]. split; [|split].
    + eapply seg_app; [eapply seg_app; [eassumption|]|]. { apply (seg_one _ (i1 + 1)). lia. } eapply seg_app; [eassumption|]. eapply seg_app; [eassumption|]. apply seg_one. lia.
    + apply refs_in_app; [apply refs_in_app; [refsub C1|apply refs_in_one; refone]|]. apply refs_in_app; [refsub C2|]. apply refs_in_app; [refsub C3|]. apply edge_curve_refs; known.
    + exists i2, i3, (i1 + 1). split; [|split; [|split]].
      * unfold has. rewrite !in_app_iff. right. right. right. left. unfold edge_curve. lits.
      * eapply d_vertex_mono; [|exact D2]. inc.
      * eapply d_vertex_mono; [|exact D3]. inc.
      * exists i1. split; [unfold has; rewrite !in_app_iff; left; right; left; lits|]. eapply d_frame_mono; [|exact D1]. inc.
  - destruct (frame_step f c) as [l1 i1] eqn:E1. destruct (point_step a (i1 + 1) true) as [l2 i2] eqn:E2. intros E. injection E as <- <-.
    apply frame_step_spec in E1 as (H1 & S1 & C1 & D1). apply vertex_step_spec in E2 as (H2 & S2 & C2 & D2).
    pose proof (d_frame_id _ _ _ D1) as I1. pose proof (d_vertex_id _ _ _ D2) as I2.
    split; [lia|]. split; [|split].
    + eapply seg_app; [eapply seg_app; [eassumption|]|]. { apply (seg_one _ (i1 + 1)). lia. } eapply seg_app; [eassumption|]. apply seg_one. lia.
    + apply refs_in_app; [apply refs_in_app; [refsub C1|apply refs_in_one; refone]|]. apply refs_in_app; [refsub C2|]. apply edge_curve_refs; known.
    + exists i2, i2, (i1 + 1). split; [|split; [|split]].
      * unfold has. rewrite !in_app_iff. right. right. left. unfold edge_curve. lits.
      * eapply d_vertex_mono; [|exact D2]. inc.
      * eapply d_vertex_mono; [|exact D2]. inc.
      * exists i1. split; [unfold has; rewrite !in_app_iff; left; right; left; lits|]. eapply d_frame_mono; [|exact D1]. inc.
  - destruct (points_step ps c) as [[l1 is] i1] eqn:E1. destruct (point_step a (i1 + 1) true) as [l2 i2] eqn:E2. destruct (point_step b (i2 + 1 + 1) true) as [l3 i3] eqn:E3. intros E. injection E as <- <-.
    cbn in W. apply points_step_spec in E1 as (H1 & S1 & C1 & D1). specialize (H1 W). destruct S1 as [[S1 _]|(X & _)]; [|contradiction].
    apply vertex_step_spec in E2 as (H2 & S2 & C2 & D2). apply vertex_step_spec in E3 as (H3 & S3 & C3 & D3).
    assert (I1 : incl is (ids l1)) by (eapply Forall2_ids; [|exact D1]; intros; eapply d_point_id; eassumption). pose proof (d_vertex_id _ _ _ D2) as I2. pose proof (d_vertex_id _ _ _ D3) as I3.
    split; [lia|]. split; [|split].
    + eapply seg_app; [eapply seg_app; [eassumption|]|]. { apply (seg_one _ i1). lia. }
      eapply seg_app; [eapply seg_weak; [eassumption|lia|apply Z.le_refl]|]. eapply seg_app; [eapply seg_weak; [eassumption|lia|apply Z.le_refl]|]. apply seg_one. lia.
    + apply refs_in_app; [apply refs_in_app; [refsub C1|]|].
      { apply refs_in_one. intros r. rewrite id_pieces_comma, refs_mid. cbn [prefs refs e_body flat_map app]. rewrite in_app_iff. intros [Hr|[]]. apply I1 in Hr. known. }
      apply refs_in_app; [refsub C2|]. apply refs_in_app; [refsub C3|]. apply edge_curve_refs; known.
    + exists i2, i3, i1. split; [|split; [|split]].
      * unfold has. rewrite !in_app_iff. right. right. right. left. unfold edge_curve. lits.
      * eapply d_vertex_mono; [|exact D2]. inc.
      * eapply d_vertex_mono; [|exact D3]. inc.
      * exists is. split; [unfold has; rewrite !in_app_iff; left; right; left; rewrite id_pieces_comma; lits|]. eapply Forall2_mono; [|exact D1]. intros x y. apply d_point_mono. inc.
Qed.
Lemma curve_step_spec e c l c' : wf_curve e -> curve_step e c = (l, c') -> c < c' /\ seg c c' l /\ closed l /\ d_curve l c' e.
Proof. destruct e; cbn; intros W E; [eapply edge_step_spec; eassumption|eapply line_step_spec; eassumption|eapply circle_step_spec; eassumption]. Qed.
Lemma row_points ps c : row_step ps c = points_step ps c.
Proof. revert c. induction ps as [|p ps IH]; intros c; [reflexivity|]. cbn. rewrite IH. reflexivity. Qed.
Lemma table_step_spec t : forall c l iss c', Forall (fun row => row <> []) t -> table_step t c = (l, iss, c') ->
  (t <> [] -> c < c') /\ (seg c (c' - 1) l /\ c < c' \/ t = [] /\ l = [] /\ c' = c) /\ closed l /\ Forall2 (Forall2 (d_point l)) iss t.
Proof.
  induction t as [|row t IH]; intros c l iss c' W E; cbn in E.
  - injection E as <- <- <-. split; [congruence|]. split; [right; auto|]. split; [intros e r []|constructor].
  - destruct (row_step row c) as [[l1 is1] c1] eqn:E1. destruct (table_step t c1) as [[l2 is2] c2] eqn:E2. injection E as <- <- <-. inversion W as [|x y W1 W2]; subst.
    rewrite row_points in E1. apply points_step_spec in E1 as (H1 & S1 & C1 & D1). specialize (H1 W1). destruct S1 as [[S1 _]|(X & _)]; [|contradiction].
    destruct (IH _ _ _ _ W2 E2) as (H2 & S2 & C2 & D2). clear IH E2.
    assert (G : c1 <= c2). { destruct S2 as [[(A & _) B]|(-> & -> & ->)]; lia. }
    split; [lia|]. split; [left; split; [|lia]|split].
    + eapply seg_app; [exact S1|]. destruct S2 as [[S2 B]|(-> & -> & ->)]; [eapply seg_weak; [exact S2|lia|lia]|apply seg_nil; lia].
    + apply refs_in_app; [refsub C1|refsub C2].
    + constructor; [eapply Forall2_mono; [|exact D1]; intros a b; apply d_point_mono; inc|].
      eapply Forall2_mono; [|exact D2]. intros a b F. eapply Forall2_mono; [|exact F]. intros x y. apply d_point_mono. inc.
Qed.
Lemma surface_step_spec s c l c' : wf_surface s -> surface_step s c = (l, c') -> c < c' /\ seg c c' l /\ closed l /\ d_surface l c' s.
Proof.
  intros W. destruct s as [k n f p|n e v|n e p v|n d t p]; cbn [surface_step].
  - destruct (frame_step f c) as [l1 i1] eqn:E1. intros E. injection E as <- <-. apply frame_step_spec in E1 as (H1 & S1 & C1 & D1). pose proof (d_frame_id _ _ _ D1) as I1.
    split; [lia|]. split; [|split].
    + eapply seg_app; [eassumption|]. apply seg_one. lia.
    + apply refs_in_app; [refsub C1|]. apply refs_in_one. refone.
    + exists i1. split; [unfold has; rewrite in_app_iff; right; left; lits|]. eapply d_frame_mono; [|exact D1]. inc.
  - destruct (curve_step e c) as [l1 i1] eqn:E1. destruct (vector_step v (i1 + 1) false) as [l2 i2] eqn:E2. intros E. injection E as <- <-.
    apply curve_step_spec in E1 as (H1 & S1 & C1 & D1); [|exact W]. apply direction_step_spec in E2 as (H2 & S2 & C2 & D2). pose proof (d_curve_id _ _ _ D1) as I1. pose proof (d_direction_id _ _ _ D2) as I2.
    split; [lia|]. split; [|split].
    + eapply seg_app; [eassumption|]. eapply seg_app; [eapply seg_weak; [eassumption|lia|apply Z.le_refl]|]. apply seg_one. lia.
    + apply refs_in_app; [refsub C1|]. apply refs_in_app; [refsub C2|]. apply refs_in_one. refone.
    + exists i1, i2. split; [unfold has; rewrite !in_app_iff; right; right; left; lits|]. split; [eapply d_curve_mono; [|exact D1]; inc|eapply d_direction_mono; [|exact D2]; inc].
  - destruct (curve_step e c) as [l1 i1] eqn:E1. destruct (point_step p (i1 + 1) false) as [l2 i2] eqn:E2. destruct (vector_step v (i2 + 1) false) as [l3 i3] eqn:E3. intros E. injection E as <- <-.
    apply curve_step_spec in E1 as (H1 & S1 & C1 & D1); [|exact W]. apply point_step_spec in E2 as (H2 & S2 & C2 & D2). apply direction_step_spec in E3 as (H3 & S3 & C3 & D3).
    pose proof (d_curve_id _ _ _ D1) as I1. pose proof (d_point_id _ _ _ D2) as I2. pose proof (d_direction_id _ _ _ D3) as I3. replace (i3 + 1 + 1 - 1) with (i3 + 1) by ring.
    split; [lia|]. split; [|split].
    + eapply seg_app; [eassumption|]. eapply seg_app; [eapply seg_weak; [eassumption|lia|apply Z.le_refl]|]. eapply seg_app; [eapply seg_weak; [eassumption|lia|apply Z.le_refl]|]. apply seg_cons; [lia|]. apply seg_one. lia.
    + apply refs_in_app; [refsub C1|]. apply refs_in_app; [refsub C2|]. apply refs_in_app; [refsub C3|]. apply refs_in_cons; [refone|]. apply refs_in_one. refone.
    + exists i1, (i3 + 1), i2, i3. split; [unfold has; rewrite !in_app_iff; right; right; right; right; left; lits|]. split; [eapply d_curve_mono; [|exact D1]; inc|].
      split; [unfold has; rewrite !in_app_iff; right; right; right; left; lits|]. split; [eapply d_point_mono; [|exact D2]; inc|eapply d_direction_mono; [|exact D3]; inc].
  - destruct (table_step t c) as [[l1 iss] i1] eqn:E1. intros E. injection E as <- <-. destruct W as [W1 W2]. apply table_step_spec in E1 as (H1 & S1 & C1 & D1); [|exact W2]. specialize (H1 W1).
    destruct S1 as [[S1 _]|(X & _)]; [|contradiction].
    assert (I1 : incl (concat iss) (ids l1)).
    { clear - D1. induction D1 as [|a b x y F D IH]; [intros r []|]. cbn. apply incl_app; [|exact IH]. eapply Forall2_ids; [|exact F]. intros; eapply d_point_id; eassumption. }
    split; [lia|]. split; [|split].
    + eapply seg_app; [eassumption|]. apply seg_one. lia.
    + apply refs_in_app; [refsub C1|]. apply refs_in_one. intros r Hr. rewrite table_pieces_comma in Hr.
      match type of Hr with In r (refs (Entity _ (?a :: comma_rows iss ++ ?b))) => change (In r (prefs ([a] ++ comma_rows iss ++ b))) in Hr end.
      rewrite !prefs_app, prefs_rows in Hr. apply in_app_or in Hr. destruct Hr as [[]|Hr]. apply in_app_or in Hr. destruct Hr as [Hr|[]]. apply I1 in Hr. known.
    + exists iss. split; [unfold has; rewrite !in_app_iff; right; left; rewrite table_pieces_comma; lits|]. eapply Forall2_mono; [|exact D1]. intros a b F. eapply Forall2_mono; [|exact F]. intros x y. apply d_point_mono. inc.
Qed.
Definition d_oriented l j e := exists a, has l j [Lit (kw "ORIENTED_EDGE" (edge_name e) ++ "*,*,"); Ref a; Lit ",.T.)"] /\ d_edge l a e.
Lemma edges_step_spec es : forall c l is c', Forall wf_edge es -> edges_step es c = (l, is, c') -> seg c c' l /\ closed l /\ Forall2 (d_oriented l) is es.
Proof.
  induction es as [|e es IH]; intros c l is c' W E; cbn in E.
  - injection E as <- <- <-. split; [apply seg_nil; lia|]. split; [intros e r []|constructor].
  - destruct (edge_step e c) as [l1 i1] eqn:E1. destruct (edges_step es (i1 + 1)) as [[l2 is2] c2] eqn:E2. injection E as <- <- <-. inversion W as [|x y W1 W2]; subst.
    apply edge_step_spec in E1 as (H1 & S1 & C1 & D1); [|exact W1]. destruct (IH _ _ _ _ W2 E2) as (S2 & C2 & D2). clear IH E2. pose proof (d_edge_id _ _ _ D1) as I1.
    split; [|split].
    + eapply seg_app; [exact S1|]. apply seg_cons; [lia|exact S2].
    + apply refs_in_app; [refsub C1|]. apply refs_in_cons; [refone|refsub C2].
    + constructor.
      * exists i1. split; [unfold has; rewrite in_app_iff; right; left; lits|]. eapply d_edge_mono; [|exact D1]. inc.
      * eapply Forall2_mono; [|exact D2]. intros a b (j & X & Y). exists j. split; [eapply has_mono; [|exact X]; inc|eapply d_edge_mono; [|exact Y]; inc].
Qed.
Lemma oriented_id l j e : d_oriented l j e -> In j (ids l). Proof. intros (a & A & _). eapply in_ids; eassumption. Qed.
Lemma contour_step_spec k c l c' : wf_contour k -> contour_step k c = (l, c') -> c < c' /\ seg c c' l /\ closed l /\ d_contour l c' k.
Proof.
  unfold contour_step. intros W. destruct (edges_step (k_primitives k) c) as [[l1 is] i1] eqn:E1. intros E. injection E as <- <-. apply edges_step_spec in E1 as (S1 & C1 & D1); [|exact W].
  assert (I1 : incl is (ids l1)) by (eapply Forall2_ids; [|exact D1]; intros; eapply oriented_id; eassumption). pose proof S1 as (H1 & _).
  split; [lia|]. split; [|split].
  - eapply seg_app; [eassumption|]. apply seg_one. lia.
  - apply refs_in_app; [refsub C1|]. apply refs_in_one. intros r. rewrite id_pieces_comma, refs_mid. cbn [prefs refs e_body flat_map app]. rewrite in_app_iff. intros [Hr|[]]. apply I1 in Hr. known.
  - exists is. split; [unfold has; rewrite in_app_iff; right; left; rewrite id_pieces_comma; lits|]. eapply Forall2_mono; [|exact D1]. intros a b (j & X & Y). exists j. split; [eapply has_mono; [|exact X]; inc|eapply d_edge_mono; [|exact Y]; inc].
Qed.
Definition d_bound l j k := exists b, has l j [Lit (kw "FACE_BOUND" ""); Ref b; Lit ",.T.)"] /\ d_contour l b k.
Lemma bound_id l j e : d_bound l j e -> In j (ids l). Proof. intros (a & A & _). eapply in_ids; eassumption. Qed.
Lemma inner_step_spec ks : forall c l is c', Forall wf_contour ks -> inner_step ks c = (l, is, c') -> c <= c' /\ (seg c (c' - 1) l /\ c < c' \/ l = [] /\ c' = c) /\ closed l /\ Forall2 (d_bound l) is ks.
Proof.
  induction ks as [|k ks IH]; intros c l is c' W E; cbn in E.
  - injection E as <- <- <-. split; [lia|]. split; [right; auto|]. split; [intros e r []|constructor].
  - destruct (contour_step k c) as [l1 i1] eqn:E1. destruct (inner_step ks (i1 + 1 + 1)) as [[l2 is2] c2] eqn:E2. injection E as <- <- <-. inversion W as [|x y W1 W2]; subst.
    apply contour_step_spec in E1 as (H1 & S1 & C1 & D1); [|exact W1]. destruct (IH _ _ _ _ W2 E2) as (H2 & S2 & C2 & D2). clear IH E2. pose proof (d_contour_id _ _ _ D1) as I1.
    split; [lia|]. split; [left; split; [|lia]|split].
    + eapply seg_app; [exact S1|]. apply seg_cons; [lia|]. destruct S2 as [[S2 _]|(-> & ->)]; [eapply seg_weak; [exact S2|lia|lia]|apply seg_nil; lia].
    + apply refs_in_app; [refsub C1|]. apply refs_in_cons; [refone|refsub C2].
    + constructor.
      * exists i1. split; [unfold has; rewrite in_app_iff; right; left; lits|]. eapply d_contour_mono; [|exact D1]. inc.
      * eapply Forall2_mono; [|exact D2]. intros a b (j & X & Y). exists j. split; [eapply has_mono; [|exact X]; inc|eapply d_contour_mono; [|exact Y]; inc].
Qed.
Lemma face_step_spec a c l c' : wf_face a -> face_step a c = (l, c') -> c < c' /\ seg c c' l /\ closed l /\ d_face l c' a.
Proof.
  unfold face_step. intros (W1 & W2 & W3). destruct (surface_step (a_surface a) c) as [l1 i1] eqn:E1. destruct (contour_step (a_outer a) i1) as [l2 i2] eqn:E2.
  destruct (inner_step (a_inner a) (i2 + 2)) as [[l3 is] i3] eqn:E3. intros E. apply pair_equal_spec in E as [<- <-].
  apply surface_step_spec in E1 as (H1 & S1 & C1 & D1); [|exact W1]. apply contour_step_spec in E2 as (H2 & S2 & C2 & D2); [|exact W2]. apply inner_step_spec in E3 as (H3 & S3 & C3 & D3); [|exact W3].
  pose proof (d_surface_id _ _ _ D1) as I1. pose proof (d_contour_id _ _ _ D2) as I2. assert (I3 : incl is (ids l3)) by (eapply Forall2_ids; [|exact D3]; intros; eapply bound_id; eassumption).
  split; [lia|]. split; [|split].
  - eapply seg_app; [exact S1|]. eapply seg_app; [exact S2|]. apply seg_cons; [lia|]. eapply (seg_app _ (i3 - 1)); [|apply seg_one; lia]. destruct S3 as [[S3 _]|(-> & ->)]; [eapply seg_weak; [exact S3|lia|lia]|apply seg_nil; lia].
  - apply refs_in_app; [refsub C1|]. apply refs_in_app; [refsub C2|]. apply refs_in_cons; [refone|]. apply refs_in_app; [refsub C3|]. apply refs_in_one. intros r. rewrite id_pieces_comma, refs_mid.
    cbn [prefs refs e_body flat_map app]. intros [Hr|Hr]; [subst r; known|]. apply in_app_or in Hr. destruct Hr as [Hr|[Hr|[]]]; [apply I3 in Hr; known|subst r; known].
  - exists i1, (i2 + 1), i2, is. split; [unfold has; rewrite !in_app_iff; cbn [In]; rewrite !in_app_iff; do 3 right; right; left; rewrite id_pieces_comma; lits|].
    split; [eapply d_surface_mono; [|exact D1]; inc|]. split; [unfold has; rewrite !in_app_iff; cbn [In]; do 2 right; left; lits|]. split; [eapply d_contour_mono; [|exact D2]; inc|].
    eapply Forall2_mono; [|exact D3]. intros x y (j & X & Y). exists j. split; [eapply has_mono; [|exact X]; inc|eapply d_contour_mono; [|exact Y]; inc].
Qed.
Lemma faces_step_spec fs : forall c l is c', Forall wf_face fs -> faces_step fs c = (l, is, c') -> seg c c' l /\ closed l /\ Forall2 (d_face l) is fs.
Proof.
  induction fs as [|a fs IH]; intros c l is c' W E; cbn in E.
  - injection E as <- <- <-. split; [apply seg_nil; lia|]. split; [intros e r []|constructor].
  - destruct (face_step a c) as [l1 i1] eqn:E1. destruct (faces_step fs i1) as [[l2 is2] c2] eqn:E2. injection E as <- <- <-. inversion W as [|x y W1 W2]; subst.
    apply face_step_spec in E1 as (H1 & S1 & C1 & D1); [|exact W1]. destruct (IH _ _ _ _ W2 E2) as (S2 & C2 & D2). clear IH E2.
    split; [|split].
    + eapply seg_app; [exact S1|exact S2].
    + apply refs_in_app; [refsub C1|refsub C2].
    + constructor; [eapply d_face_mono; [|exact D1]; inc|]. eapply Forall2_mono; [|exact D2]. intros x y. apply d_face_mono. inc.
Qed.
Lemma d_faces_incl l is fs : Forall2 (d_face l) is fs -> incl is (ids l).
Proof. intros D. eapply Forall2_ids; [|exact D]. intros; eapply d_face_id; eassumption. Qed.
Lemma shell_entity_refs s i is L : incl is (ids L) -> forall r, In r (refs (shell_entity s i is)) -> In r (ids L).
Proof. intros H r. unfold shell_entity. rewrite id_pieces_comma, refs_mid. cbn [prefs refs e_body flat_map app]. rewrite in_app_iff. intros [Hr|[]]. apply H. assumption. Qed.
Lemma manifold_entity_refs s m i L : In i (ids L) -> forall r, In r (refs (manifold_entity s m i)) -> In r (ids L).
Proof. intros H r. unfold manifold_entity. destruct (s_closed s); intros [<-|[]]; assumption. Qed.
Lemma refs_in_cons' e l L : (forall r, In r (refs e) -> In r (ids L)) -> refs_in l L -> refs_in (e :: l) L.
Proof. intros A B x r [<-|H]; [apply A|apply B; assumption]. Qed.
Lemma shell_entity_id s i is : e_id (shell_entity s i is) = i. Proof. reflexivity. Qed.
Lemma manifold_entity_id s i j : e_id (manifold_entity s i j) = i. Proof. unfold manifold_entity. destruct (s_closed s); reflexivity. Qed.
Lemma seg_cons' c c' e l : c < e_id e -> seg (e_id e) c' l -> seg c c' (e :: l).
Proof. destruct e. apply seg_cons. Qed.
Lemma manifold_spec L s m i is : In (manifold_entity s m i) L -> In (shell_entity s i is) L -> Forall2 (d_face L) is (s_faces s) -> d_manifold L m s.
Proof.
  intros A B C. exists i. split.
  - exists is. split; [|exact C]. unfold has. unfold shell_entity, step_function in B. rewrite id_pieces_comma in B. destruct (s_closed s); revert B; unfold kw, quote; rewrite ?sapp_assoc; cbn; auto.
  - unfold manifold_entity in A. destruct (s_closed s); unfold has; revert A; unfold kw, quote; rewrite ?sapp_assoc; cbn; auto.
Qed.
Lemma shell_step_spec s c l c' : wf_shell s -> shell_step s c = (l, c') -> c < c' /\ seg c c' l /\ closed l /\ d_manifold l c' s.
Proof.
  unfold shell_step. intros W. destruct (faces_step (s_faces s) c) as [[l1 is] i1] eqn:E1. intros E. injection E as <- <-. apply faces_step_spec in E1 as (S1 & C1 & D1); [|exact W]. pose proof S1 as (H1 & _).
  pose proof (d_faces_incl _ _ _ D1) as I1.
  split; [lia|]. split; [|split].
  - eapply seg_app; [exact S1|]. apply seg_cons'; rewrite shell_entity_id; [lia|]. apply seg_cons'; rewrite manifold_entity_id; [lia|]. apply seg_nil. lia.
  - apply refs_in_app; [refsub C1|]. apply refs_in_cons'; [|apply refs_in_cons'; [|apply refs_in_nil]].
    + apply shell_entity_refs. intros r Hr. apply I1 in Hr. known.
    + apply manifold_entity_refs. unfold ids. rewrite map_app, in_app_iff. right. left. reflexivity.
  - eapply manifold_spec; [rewrite in_app_iff; right; right; left; reflexivity|rewrite in_app_iff; right; left; reflexivity|]. eapply Forall2_mono; [|exact D1]. intros x y. apply d_face_mono. inc.
Qed.
