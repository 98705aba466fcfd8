From Verif.Model Require Import Base FloodFill VoxelMatrix Octree.
From Verif.Spec Require Import OctreeSpec.
From Verif.Proofs Require Import FloodFillP VoxelP OctreeP OctreeP2 OctreeP3.
From Coq Require Import Lia.
Open Scope Z_scope.

(** Dictionaries of sets *)
Section dict.
Context {K : Type} (eqk : K -> K -> bool) (eqk_spec : forall a b, eqk a b = true <-> a = b).
Lemma eqk_refl a : eqk a a = true. Proof. apply eqk_spec. reflexivity. Qed.
Definition wf (d : sdict K) : Prop := NoDup (map fst d) /\ Forall (fun e => NoDup (snd e)) d.
Lemma set_add_in s p q : In q (set_add s p) <-> In q s \/ q = p.
Proof.
  unfold set_add. destruct (existsb (eqb3 p) s) eqn:X; [|rewrite in_app_iff; cbn; intuition congruence]. apply existsb_exists in X as (r & Hr & X). apply eqb3_spec in X. subst r. split; [tauto|]. intros [H| ->]; assumption.
Qed.
Lemma set_add_nodup s p : NoDup s -> NoDup (set_add s p).
Proof.
  intros H. unfold set_add. destruct (existsb (eqb3 p) s) eqn:X; [assumption|]. rewrite <- (app_nil_r (s ++ [p])), <- app_assoc. apply NoDup_Add with (a := p) (l := (s ++ [])%list); [apply Add_app|]. rewrite app_nil_r. split; [assumption|].
  intros Y. assert (existsb (eqb3 p) s = true) by (apply existsb_exists; exists p; split; [assumption|apply eqb3_refl]). congruence.
Qed.
Lemma set_adds_in ps : forall s q, In q (fold_left set_add ps s) <-> In q s \/ In q ps.
Proof. induction ps as [|p ps IH]; intros s q; cbn [fold_left]; [cbn; tauto|]. rewrite IH, set_add_in. cbn. intuition congruence. Qed.
Lemma set_adds_nodup ps : forall s, NoDup s -> NoDup (fold_left set_add ps s).
Proof. induction ps as [|p ps IH]; intros s H; [assumption|]. apply IH. apply set_add_nodup. assumption. Qed.
Lemma has_cons (e : K * list pt3) d k p : dict_has (e :: d) k p <-> (fst e = k /\ In p (snd e)) \/ dict_has d k p.
Proof.
  unfold dict_has. destruct e as [k' s']. cbn [fst snd]. split.
  - intros (s & [X|X] & H); [apply pair_equal_spec in X as [<- <-]; left; split; [reflexivity|assumption]|right; exists s; split; assumption].
  - intros [[<- H]|(s & X & H)]; [exists s'; split; [left; reflexivity|assumption]|exists s; split; [right; assumption|assumption]].
Qed.
Lemma has_nil k p : dict_has (K := K) [] k p <-> False. Proof. split; [intros (s & [] & _)|intros []]. Qed.
Lemma update_has d : forall k ps k' p, dict_has (dict_update eqk d k ps) k' p <-> dict_has d k' p \/ (k' = k /\ In p ps).
Proof.
  induction d as [|[k0 s0] d IH]; intros k ps k' p; cbn [dict_update].
  - rewrite has_cons, has_nil. cbn [fst snd]. rewrite set_adds_in. cbn. intuition congruence.
  - destruct (eqk k k0) eqn:X.
    + apply eqk_spec in X. subst k0. rewrite !has_cons. cbn [fst snd]. rewrite set_adds_in. intuition congruence.
    + rewrite !has_cons, IH. cbn [fst snd]. tauto.
Qed.
Lemma update_keys d : forall k ps, map fst (dict_update eqk d k ps) = if existsb (eqk k) (map fst d) then map fst d else (map fst d ++ [k])%list.
Proof.
  induction d as [|[k0 s0] d IH]; intros k ps; cbn [dict_update map existsb fst]; [reflexivity|]. destruct (eqk k k0) eqn:X; cbn [map fst orb]; [reflexivity|]. rewrite IH. destruct (existsb (eqk k) (map fst d)); reflexivity.
Qed.
Lemma update_wf d k ps : wf d -> wf (dict_update eqk d k ps).
Proof.
  intros [N F]. split.
  - rewrite update_keys. destruct (existsb (eqk k) (map fst d)) eqn:X; [assumption|]. apply NoDup_Add with (a := k) (l := (map fst d ++ [])%list); [apply Add_app|]. rewrite app_nil_r. split; [assumption|]. intros Y. assert (existsb (eqk k) (map fst d) = true) by (apply existsb_exists; exists k; split; [assumption|apply eqk_refl]). congruence.
  - clear N. induction F as [|[k0 s0] d H F IH]; cbn [dict_update]; [constructor; [apply set_adds_nodup; constructor|constructor]|]. destruct (eqk k k0); constructor; try assumption. cbn in *. apply set_adds_nodup. assumption.
Qed.
Lemma merge_has sub : forall d k p, dict_has (dict_merge eqk d sub) k p <-> dict_has d k p \/ dict_has sub k p.
Proof.
  unfold dict_merge. induction sub as [|[k0 s0] sub IH]; intros d k p; cbn [fold_left]; [rewrite has_nil; tauto|]. rewrite IH, update_has, has_cons. cbn [fst snd]. intuition congruence.
Qed.
Lemma merge_wf sub : forall d, wf d -> wf (dict_merge eqk d sub).
Proof. unfold dict_merge. induction sub as [|[k0 s0] sub IH]; intros d H; cbn [fold_left]; [assumption|]. apply IH. apply update_wf. assumption. Qed.
Lemma get_has d k p : wf d -> In p (dict_get eqk d k) <-> dict_has d k p.
Proof.
  intros [N _]. unfold dict_get. induction d as [|[k0 s0] d IH]; cbn [find]; [rewrite has_nil; cbn; tauto|]. cbn [map fst] in N. inversion N as [|? ? N1 N2]; subst. cbn [fst]. destruct (eqk k k0) eqn:X.
  - apply eqk_spec in X. subst k0. rewrite has_cons. cbn [fst snd]. split; [tauto|]. intros [[_ H]|(s & Y & _)]; [assumption|]. exfalso. apply N1. apply in_map_iff. exists (k, s). split; [reflexivity|assumption].
  - rewrite has_cons, IH by assumption. cbn [fst snd]. split; [tauto|]. intros [[Y _]|Y]; [|assumption]. subst. rewrite eqk_refl in X. discriminate.
Qed.
Lemma get_nodup d k : wf d -> NoDup (dict_get eqk d k).
Proof.
  intros [_ F]. unfold dict_get. destruct (find _ d) as [e|] eqn:X; [|constructor]. apply find_some in X as [X _]. rewrite Forall_forall in F. apply F. assumption.
Qed.
Lemma del_has d k k' p : dict_has (dict_del eqk d k) k' p <-> dict_has d k' p /\ k' <> k.
Proof.
  unfold dict_del. induction d as [|[k0 s0] d IH]; cbn [filter]; [rewrite has_nil; tauto|]. cbn [fst]. destruct (eqk k k0) eqn:X; cbn [negb].
  - apply eqk_spec in X. subst k0. rewrite IH, has_cons. cbn [fst snd]. intuition congruence.
  - rewrite !has_cons, IH. cbn [fst snd]. split; [|tauto]. intros [[-> H]|H]; [|tauto]. split; [tauto|]. intros ->. rewrite eqk_refl in X. discriminate.
Qed.
Lemma filter_nodup_map (f : K * list pt3 -> bool) d : NoDup (map fst d) -> NoDup (map fst (filter f d)).
Proof.
  induction d as [|e d IH]; cbn [filter map]; intros H; [constructor|]. inversion H; subst. destruct (f e); [|apply IH; assumption]. cbn [map]. constructor; [|apply IH; assumption]. intros X. apply H2. apply in_map_iff in X as (y & Y1 & Y2). apply in_map_iff. exists y. split; [assumption|]. apply filter_In in Y2. apply Y2.
Qed.
Lemma del_wf d k : wf d -> wf (dict_del eqk d k).
Proof. intros [N F]. split; [apply filter_nodup_map; assumption|]. rewrite Forall_forall in *. intros e He. apply filter_In in He. apply F. apply He. Qed.
Lemma set_has d k s k' p : dict_has (dict_set eqk d k s) k' p <-> (dict_has d k' p /\ k' <> k) \/ (k' = k /\ In p s).
Proof.
  unfold dict_set. destruct (existsb (fun e => eqk k (fst e)) d) eqn:X.
  - assert (Y : exists e, In e d /\ fst e = k). { apply existsb_exists in X as (e & He & X). apply eqk_spec in X. exists e. split; [assumption|congruence]. } clear X. destruct Y as ([k0 s0] & He & <-). cbn [fst]. unfold dict_has. split.
    + intros (s1 & H & Hp). apply in_map_iff in H as ([k1 s2] & E1 & H). cbn [fst] in E1. destruct (eqk k0 k1) eqn:Z; apply pair_equal_spec in E1 as [E1 E2]; subst.
      * apply eqk_spec in Z. right. split; [congruence|assumption].
      * left. split; [exists s1; split; assumption|]. intros ->. rewrite eqk_refl in Z. discriminate.
    + intros [[(s1 & H & Hp) N]|[-> Hp]].
      * exists s1. split; [|assumption]. apply in_map_iff. exists (k', s1). split; [|assumption]. cbn [fst]. destruct (eqk k0 k') eqn:Z; [|reflexivity]. apply eqk_spec in Z. congruence.
      * exists s. split; [|assumption]. apply in_map_iff. exists (k0, s0). split; [|assumption]. cbn [fst]. rewrite eqk_refl. reflexivity.
  - assert (Y : forall s1, ~ In (k, s1) d). { intros s1 H. assert (existsb (fun e => eqk k (fst e)) d = true); [|congruence]. apply existsb_exists. exists (k, s1). split; [assumption|apply eqk_refl]. }
    unfold dict_has. split.
    + intros (s1 & H & Hp). apply in_app_iff in H as [H|[H|[]]]; [|apply pair_equal_spec in H as [<- <-]; right; split; [reflexivity|assumption]]. left. split; [exists s1; split; assumption|]. intros ->. exact (Y _ H).
    + intros [[(s1 & H & Hp) N]|[-> Hp]]; [exists s1; split; [apply in_app_iff; left; assumption|assumption]|exists s; split; [apply in_app_iff; right; left; reflexivity|assumption]].
Qed.
Lemma set_wf d k s : wf d -> NoDup s -> wf (dict_set eqk d k s).
Proof.
  intros [N F] H. unfold dict_set. destruct (existsb (fun e => eqk k (fst e)) d) eqn:X; split.
  - rewrite map_map. rewrite (map_ext _ fst); [assumption|]. intros e. destruct (eqk k (fst e)); reflexivity.
  - apply Forall_forall. intros e He. apply in_map_iff in He as (e' & <- & He). rewrite Forall_forall in F. destruct (eqk k (fst e')); [assumption|apply F; assumption].
  - rewrite map_app. cbn [map fst]. apply NoDup_Add with (a := k) (l := (map fst d ++ [])%list); [apply Add_app|]. rewrite app_nil_r. split; [assumption|]. intros Y. apply in_map_iff in Y as (e & <- & He). assert (existsb (fun e0 => eqk (fst e) (fst e0)) d = true); [|congruence]. apply existsb_exists. exists e. split; [assumption|apply eqk_refl].
  - apply Forall_app. split; [assumption|]. constructor; [assumption|constructor].
Qed.
Lemma wf_nil : wf []. Proof. split; constructor. Qed.
(** merging the dictionaries of the children *)
Lemma fold_octants (test : pt3 -> bool) (f : pt3 -> sdict K) (l : list pt3) : forall d k p,
  dict_has (fold_left (fun d o => if test o then dict_merge eqk d (f o) else d) l d) k p <-> dict_has d k p \/ exists o, In o l /\ test o = true /\ dict_has (f o) k p.
Proof.
  induction l as [|o l IH]; intros d k p; cbn [fold_left]; [split; [tauto|intros [H|(o & [] & _)]; assumption]|]. rewrite IH. destruct (test o) eqn:X.
  - rewrite merge_has. split; [intros [[H|H]|(o' & H & H')]; [left; assumption|right; exists o; split; [left; reflexivity|split; assumption]|right; exists o'; split; [right; assumption|assumption]]|].
    intros [H|(o' & [-> |H] & H')]; [tauto|left; right; apply H'|right; exists o'; split; assumption].
  - split; [intros [H|(o' & H & H')]; [left; assumption|right; exists o'; split; [right; assumption|assumption]]|]. intros [H|(o' & [-> |H] & H')]; [tauto|destruct H'; congruence|right; exists o'; split; assumption].
Qed.
Lemma fold_octants_wf (test : pt3 -> bool) (f : pt3 -> sdict K) (l : list pt3) : forall d, wf d -> wf (fold_left (fun d o => if test o then dict_merge eqk d (f o) else d) l d).
Proof. induction l as [|o l IH]; intros d H; cbn [fold_left]; [assumption|]. apply IH. destruct (test o); [apply merge_wf|]; assumption. Qed.
End dict.
