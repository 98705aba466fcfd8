(** Boolean operations on shells, merging of faces. *)
From Coq Require Import List Arith ZArith Lia Bool Permutation.
From Verif.Model Require Import Base Shells.
From Verif.Spec Require Import ShellsSpec.
Import ListNotations.

Lemma union_ok {S P} (region : S -> P -> Prop) disjoint inside general a b : right_tests region disjoint inside ->
  (disjoint a b = false -> inside a b = false -> inside b a = false -> forall p, covered region (general a b) p <-> region a p \/ region b p) ->
  forall p, covered region (union disjoint inside general a b) p <-> region a p \/ region b p.
Proof.
  intros (H1 & H2) G p. unfold union, validate_set_operation. destruct (disjoint a b) eqn:D.
  - unfold covered. cbn [In]. split; [intros (s & [<- | [<- | []]] & R); auto|intros [R | R]; [exists a|exists b]; auto].
  - destruct (inside a b) eqn:I.
    + unfold covered. cbn [In]. split; [intros (s & [<- | []] & R); auto|intros [R | R]; exists b; split; auto; apply (H2 a b I); auto].
    + destruct (inside b a) eqn:J; [|apply G; auto]. unfold covered. cbn [In]. split; [intros (s & [<- | []] & R); auto|intros [R | R]; exists a; split; auto; apply (H2 b a J); auto].
Qed.
Lemma intersection_ok {S P} (region : S -> P -> Prop) disjoint inside general a b : right_tests region disjoint inside ->
  (disjoint a b = false -> inside a b = false -> inside b a = false -> forall p, covered region (general a b) p <-> region a p /\ region b p) ->
  forall p, covered region (intersection disjoint inside general a b) p <-> region a p /\ region b p.
Proof.
  intros (H1 & H2) G p. unfold intersection. destruct (disjoint a b) eqn:D.
  - split; [intros (s & [] & _)|intros R; exfalso; apply (H1 a b D p); auto].
  - destruct (inside a b) eqn:I.
    + unfold covered. cbn [In]. split; [intros (s & [<- | []] & R); split; auto; apply (H2 a b I); auto|intros (R & _); exists a; auto].
    + destruct (inside b a) eqn:J; [|apply G; auto]. unfold covered. cbn [In]. split; [intros (s & [<- | []] & R); split; auto; apply (H2 b a J); auto|intros (_ & R); exists b; auto].
Qed.
Lemma subtract_closed_ok {S P} (region : S -> P -> Prop) disjoint inside general a b : right_tests region disjoint inside ->
  (disjoint a b = false -> forall p, covered region (general a b) p <-> region a p /\ ~ region b p) ->
  forall p, covered region (subtract_to_closed_shell disjoint inside general a b) p <-> region a p /\ ~ region b p.
Proof.
  intros (H1 & H2) G p. unfold subtract_to_closed_shell. destruct (disjoint a b) eqn:D; [|apply G; auto].
  unfold covered. cbn [In]. split; [intros (s & [<- | []] & R); split; auto; intros R'; apply (H1 a b D p); auto|intros (R & _); exists a; auto].
Qed.
Lemma subtract_early {S} disjoint inside (general general' : S -> S -> list S) a b : disjoint a b = true \/ inside a b = true \/ inside b a = true -> subtract disjoint inside general a b = union disjoint inside general' a b.
Proof.
  intros H. unfold subtract, union, validate_set_operation. destruct (disjoint a b); auto. destruct (inside a b); auto. destruct (inside b a); auto. destruct H as [H | [H | H]]; discriminate.
Qed.
Lemma subtract_wrong : exists (region : nat -> nat -> Prop) disjoint inside general a b p, right_tests region disjoint inside /\
  (forall q, covered region (general a b) q <-> region a q /\ ~ region b q) /\ region b p /\ covered region (subtract disjoint inside general a b) p.
Proof.
  exists (fun s p => p < s), (fun _ _ => false), (fun a b => Nat.leb a b), (fun x y => []), 1, 2, 0. split; [|split; [|split]].
  - split; [discriminate|]. intros a b H p L. apply Nat.leb_le in H. lia.
  - intros q. split; [intros (s & [] & _)|lia].
  - lia.
  - exists 2. split; [left; reflexivity|lia].
Qed.
(** the faces kept at the end *)
Lemma validate_app {F} (covers : F -> F -> bool) : forall faces valid, exists added, validate_faces covers valid faces = valid ++ added /\ incl added faces /\
  (forall f, In f faces -> In f added \/ exists v, In v (valid ++ added) /\ covers v f = true) /\
  (forall l1 f l2, added = l1 ++ f :: l2 -> forall v, In v (valid ++ l1) -> covers v f = false).
Proof.
  induction faces as [|f faces IH]; intros valid; cbn [validate_faces].
  - exists []. rewrite app_nil_r. split; auto. split; [intros x []|]. split; [intros f []|]. intros l1 f l2 E. destruct l1; discriminate.
  - destruct (existsb (fun v => covers v f) valid) eqn:E.
    + destruct (IH valid) as (added & A & B & C & G). exists added. split; auto. split; [intros x X; right; auto|]. split; [|auto]. intros g [<- | I]; [|auto]. right. apply existsb_exists in E as (v & V & E). exists v. split; auto. apply in_app_iff; auto.
    + destruct (IH (valid ++ [f])) as (added & A & B & C & G). exists (f :: added). split; [rewrite A, <- app_assoc; reflexivity|]. split; [intros x [<- | X]; [left|right]; auto|]. split.
      * intros g [<- | I]; [left; left; auto|]. destruct (C g I) as [H | (v & H & K)]; [left; right; auto|]. right. exists v. split; auto. rewrite <- app_assoc in H. exact H.
      * intros l1 g l2 Q v V. destruct l1 as [|h l1]; cbn [app] in Q.
        -- assert (f = g) by congruence. subst g. rewrite app_nil_r in V. destruct (covers v f) eqn:K; auto. assert (existsb (fun v => covers v f) valid = true) by (apply existsb_exists; eauto). congruence.
        -- assert (h = f) by congruence. assert (added = l1 ++ g :: l2) by congruence. subst h. eapply G; eauto. rewrite <- app_assoc. exact V.
Qed.
Lemma validate_ok {F} (covers : F -> F -> bool) faces : let kept := validate_set_operations_faces covers faces in incl kept faces /\
  (forall f, In f faces -> In f kept \/ exists v, In v kept /\ covers v f = true) /\
  (forall l1 f l2, kept = l1 ++ f :: l2 -> forall v, In v l1 -> covers v f = false).
Proof. destruct (validate_app covers faces []) as (added & A & B & C & G). cbv zeta. unfold validate_set_operations_faces. rewrite A. cbn [app] in *. auto. Qed.
Lemma validate_refuted : exists (covers : nat -> nat -> bool) faces f g, (forall a, covers a a = true) /\ (forall a b c, covers a b = true -> covers b c = true -> covers a c = true) /\
  In f (validate_set_operations_faces covers faces) /\ In g (validate_set_operations_faces covers faces) /\ f <> g /\ covers f g = true.
Proof.
  exists (fun a b => Nat.leb b a), [1; 2], 2, 1. split; [intros; apply Nat.leb_le; lia|]. split; [intros a b c; rewrite !Nat.leb_le; lia|]. vm_compute. repeat split; auto; discriminate.
Qed.
Lemma separate_ok : forall F I (d : list (F * list I)), separate_faces d = (map fst (filter (fun e => negb (Nat.eqb (length (snd e)) 0)) d), map fst (filter (fun e => Nat.eqb (length (snd e)) 0) d)).
Proof.
  intros F I d. unfold separate_faces. set (f := fun acc e => _). assert (H : forall d a b, fold_left f d (a, b) = (a ++ map fst (filter (fun e => negb (Nat.eqb (length (snd e)) 0)) d), b ++ map fst (filter (fun e => Nat.eqb (length (snd e)) 0) d))); [|rewrite H; reflexivity].
  clear d. induction d as [|[x i] d IH]; intros a b; cbn [fold_left filter map]; [rewrite !app_nil_r; reflexivity|]. unfold f at 2. cbn [snd fst]. destruct i as [|i0 i]; cbn [length Nat.eqb negb]; rewrite IH; cbn [map]; rewrite <- app_assoc; reflexivity.
Qed.
(** removing *)
Section Rm.
Variables (F : Type) (eqb : F -> F -> bool).
Hypothesis E : decides_equality eqb.
Lemma remove_first_ok x l : In x l -> exists r, remove_first eqb x l = Ok r /\ Permutation (x :: r) l.
Proof.
  induction l as [|y l IH]; intros I; [destruct I|]. cbn [remove_first]. destruct (eqb y x) eqn:Q; [apply E in Q as ->; eauto|]. destruct I as [-> | I]; [assert (eqb x x = true) by (apply E; auto); congruence|]. destruct (IH I) as (r & -> & P). cbn [bind]. exists (y :: r). split; auto. rewrite perm_swap. constructor. auto.
Qed.
Lemma remove_first_err x l : ~ In x l -> remove_first eqb x l = Err ValueError.
Proof.
  induction l as [|y l IH]; intros N; auto. cbn [remove_first]. destruct (eqb y x) eqn:Q; [exfalso; apply E in Q as ->; apply N; left; auto|]. rewrite IH; auto. intros I. apply N. right; auto.
Qed.
Lemma remove_all_ok xs : forall l, NoDup xs -> incl xs l -> exists r, remove_all eqb xs l = Ok r /\ Permutation (xs ++ r) l.
Proof.
  induction xs as [|x xs IH]; intros l N I; cbn [remove_all]; [eauto|]. destruct (remove_first_ok x l (I x (or_introl eq_refl))) as (r & -> & P). cbn [bind]. inversion N as [|x0 xs0 N1 N2]; subst. destruct (IH r N2) as (r' & A & B).
  - intros y Y. assert (Z : In y (x :: r)) by (eapply Permutation_in; [symmetry; exact P|apply I; right; auto]). destruct Z as [-> | Z]; [contradiction|auto].
  - exists r'. split; auto. cbn [app]. rewrite B. exact P.
Qed.
Lemma clean_ok (covers : F -> F -> bool) us news : let removed := flat_map (fun f1 => flat_map (fun f2 => if covers f1 f2 then [f2] else if covers f2 f1 then [f1] else []) news) us in
  NoDup removed -> exists l, clean_faces eqb covers us news = Ok l /\ Permutation (removed ++ l) (news ++ us).
Proof.
  intros removed N. unfold clean_faces. fold removed. apply remove_all_ok; auto. intros x X. unfold removed in X. apply in_flat_map in X as (f1 & I1 & X). apply in_flat_map in X as (f2 & I2 & X). apply in_app_iff.
  destruct (covers f1 f2); [destruct X as [<- | []]; auto|]. destruct (covers f2 f1); [destruct X as [<- | []]; auto|destruct X].
Qed.
(** merging *)
Variable coincident : F -> F -> bool.
Hypothesis C : equivalence coincident.
Lemma k_refl a : coincident a a = true. Proof. destruct C as (H & _ & _). apply H. Qed.
Lemma k_sym a b : coincident a b = true -> coincident b a = true. Proof. destruct C as (_ & H & _). apply H. Qed.
Lemma k_trans a b c : coincident a b = true -> coincident b c = true -> coincident a c = true. Proof. destruct C as (_ & _ & H). apply H. Qed.
Definition others (l : list (nat * F)) (i : nat) (f : F) : list F := map snd (filter (fun jg : nat * F => negb (Nat.eqb (fst jg) i) && coincident f (snd jg)) l).
Lemma group_is faces i f : group_of eqb coincident faces i f = match others (combine (seq 0 (length faces)) faces) i f with [] => [] | o => f :: o end.
Proof.
  unfold group_of, others. match goal with |- context [fold_left ?f _ _] => set (st := f) end.
  assert (H1 : forall l acc, In f acc -> fold_left st l acc = acc ++ map snd (filter (fun jg : nat * F => negb (Nat.eqb (fst jg) i) && coincident f (snd jg)) l)).
  { induction l as [|jg l IH]; intros acc A; cbn [fold_left filter map]; [rewrite app_nil_r; reflexivity|]. unfold st at 2. destruct (negb (fst jg =? i) && coincident f (snd jg)); cbn [map].
    - replace (existsb (eqb f) acc) with true; [|symmetry; apply existsb_exists; exists f; split; auto; apply E; auto]. rewrite IH by (apply in_app_iff; auto). rewrite <- app_assoc. reflexivity.
    - apply IH. auto. }
  generalize (combine (seq 0 (length faces)) faces). induction l as [|jg l IH]; cbn [fold_left filter map]; auto. unfold st at 2. destruct (negb (fst jg =? i) && coincident f (snd jg)); cbn [map existsb app]; [|exact IH]. rewrite H1 by (left; auto). reflexivity.
Qed.
Lemma combine_in : forall (l : list F) s jg, In jg (combine (seq s (length l)) l) <-> nth_error l (fst jg - s) = Some (snd jg) /\ s <= fst jg.
Proof.
  induction l as [|x l IH]; intros s [j g]; cbn [length seq combine In fst snd].
  - split; [intros []|intros (H & _); destruct (j - s); discriminate].
  - rewrite IH. cbn [fst snd]. split.
    + intros [H | (H & L)]; [apply pair_equal_spec in H as [-> ->]; rewrite Nat.sub_diag; auto|]. split; [|lia]. replace (j - s) with (S (j - S s)) by lia. exact H.
    + intros (H & L). destruct (Nat.eq_dec j s) as [-> | N]; [rewrite Nat.sub_diag in H; cbn in H; left; congruence|right]. replace (j - s) with (S (j - S s)) in H by lia. split; [exact H|lia].
Qed.
Lemma others_in faces i f g : others (combine (seq 0 (length faces)) faces) i f = g -> NoDup faces -> nth_error faces i = Some f -> NoDup (f :: g) /\ (forall x, In x g <-> In x faces /\ x <> f /\ coincident f x = true).
Proof.
  intros <- N I. unfold others.
  assert (IN : forall x, In x (others (combine (seq 0 (length faces)) faces) i f) <-> In x faces /\ x <> f /\ coincident f x = true).
  { intros x. unfold others. rewrite in_map_iff. split.
    - intros ([j g] & <- & H). apply filter_In in H as (H & K). apply combine_in in H as (H & _). rewrite Nat.sub_0_r in H. cbn [fst snd] in *. apply andb_true_iff in K as (K & L). apply negb_true_iff, Nat.eqb_neq in K. split; [eapply nth_error_In; eauto|]. split; auto.
      intros ->. apply K. assert (nth_error faces j = nth_error faces i) by congruence. eapply (proj1 (NoDup_nth_error faces) N); [apply nth_error_Some; congruence|auto].
    - intros (X & Ne & K). apply In_nth_error in X as (j & J). exists (j, x). split; auto. apply filter_In. split; [apply combine_in; rewrite Nat.sub_0_r; cbn [fst snd]; split; [auto|lia]|]. cbn [fst snd]. apply andb_true_iff. split; auto. apply negb_true_iff, Nat.eqb_neq. intros ->. congruence. }
  split; [|exact IN]. constructor; [intros H; apply IN in H; tauto|].
  assert (ND : forall s l, NoDup l -> NoDup (map snd (filter (fun jg : nat * F => negb (fst jg =? i) && coincident f (snd jg)) (combine (seq s (length l)) l)))).
  { intros s l. revert s. induction l as [|x l IH]; intros s Nl; cbn [length seq combine filter map]; [constructor|]. inversion Nl as [|x0 l0 N1 N2]; subst. destruct (negb _ && _); cbn [map snd]; auto. constructor; auto. intros H. apply N1. apply in_map_iff in H as (jg & <- & H). apply filter_In in H as (H & _). apply combine_in in H as (H & _). eapply nth_error_In; eauto. }
  apply ND. auto.
Qed.
Lemma to_merge faces : NoDup faces -> let g := faces_to_be_merged eqb coincident faces in
  (g = [] /\ forall a b, In a faces -> In b faces -> coincident a b = true -> a = b) \/
  (2 <= length g /\ NoDup g /\ incl g faces /\ forall a b, In a g -> In b faces -> (In b g <-> coincident a b = true)).
Proof.
  intros N. unfold faces_to_be_merged. match goal with |- context [fold_left ?f _ _] => set (st := f) end. cbv zeta.
  assert (KEEP : forall l acc, acc <> [] -> fold_left st l acc = acc). { induction l as [|x l IH]; intros acc A; auto. cbn [fold_left]. destruct acc; [congruence|]. cbn [st]. apply IH. discriminate. }
  assert (H : forall l, incl l (combine (seq 0 (length faces)) faces) -> let g := fold_left st l [] in (g = [] /\ forall jf, In jf l -> forall b, In b faces -> coincident (snd jf) b = true -> snd jf = b) \/ (2 <= length g /\ NoDup g /\ incl g faces /\ forall a b, In a g -> In b faces -> (In b g <-> coincident a b = true))).
  { induction l as [|[j f] l IH]; intros I; cbv zeta; cbn [fold_left]; [left; split; auto; intros jf []|]. assert (I' : incl l (combine (seq 0 (length faces)) faces)) by (intros x X; apply I; right; auto).
    assert (J : nth_error faces j = Some f). { assert (X := I (j, f) (or_introl eq_refl)). apply combine_in in X as (X & _). rewrite Nat.sub_0_r in X. exact X. }
    change (st [] (j, f)) with (group_of eqb coincident faces j f). rewrite group_is. destruct (others_in faces j f _ eq_refl N J) as (ND & IN). destruct (others (combine (seq 0 (length faces)) faces) j f) as [|o os] eqn:O.
    - destruct (IH I') as [(A & B) | A]; [left|right; auto]. split; auto. intros jf [<- | X]; [|auto]. cbn [snd]. intros b Hb K. destruct (eqb f b) eqn:Q; [apply E; auto|]. exfalso. apply (proj2 (IN b)). split; auto. split; auto. intros ->. assert (eqb f f = true) by (apply E; auto). congruence.
    - right. rewrite KEEP by discriminate. set (g := f :: o :: os) in *. split; [cbn; lia|]. split; auto. assert (FI : In f faces) by (eapply nth_error_In; eauto).
      assert (GI : forall x, In x g <-> In x faces /\ coincident f x = true). { intros x. unfold g. change (In x (f :: o :: os)) with (f = x \/ In x (o :: os)). rewrite IN. split; [intros [<- | H]; [split; auto; apply k_refl|tauto]|]. intros (X & K). destruct (eqb f x) eqn:Q; [left; apply E; auto|right]. split; auto. split; auto. intros ->. assert (eqb f f = true) by (apply E; auto). congruence. }
      split; [intros x X; apply GI in X; tauto|]. intros a b A B. apply GI in A as (A1 & A2). rewrite GI. split; [intros (_ & K); eapply k_trans; [apply k_sym; exact A2|auto]|intros K; split; auto; eapply k_trans; eauto]. }
  destruct (H (combine (seq 0 (length faces)) faces) (fun x X => X)) as [(A & B) | A]; [left|right; auto]. split; auto. intros a b Ia Ib K. apply In_nth_error in Ia as (j & J). apply (B (j, a)); auto. apply combine_in. rewrite Nat.sub_0_r. split; [auto|lia].
Qed.
Lemma merge_loop_ok (merge : list F -> list F) : forall fuel count faces news, NoDup faces -> length faces + (length faces - count) < fuel ->
  exists alone groups, merge_loop eqb coincident merge fuel count faces news = Ok (alone, news ++ concat (map merge groups)) /\ classes coincident faces alone groups.
Proof.
  induction fuel as [|fuel IH]; intros count faces news N M; [lia|]. cbn [merge_loop]. destruct (to_merge faces N) as [(A & B) | (A & B & I & G)].
  - rewrite A. cbn [remove_all bind]. destruct (Nat.leb (length faces) (S count)) eqn:L; cbn [andb].
    + exists faces, []. split; [cbn; rewrite app_nil_r; reflexivity|]. split; [cbn; rewrite app_nil_r; reflexivity|]. split; [intros g []|]. split; [auto|]. intros i j g h a b Hi. destruct i; discriminate.
    + apply Nat.leb_gt in L. apply IH; auto. lia.
  - set (g := faces_to_be_merged eqb coincident faces) in *. destruct (remove_all_ok g faces B I) as (rest & R0 & P). rewrite R0. cbn [bind].
    assert (NR : NoDup rest /\ forall x, In x rest -> ~ In x g). { assert (NP : NoDup (g ++ rest)) by (eapply Permutation_NoDup; [symmetry; exact P|auto]). clear - NP. induction g as [|x g IH]; cbn [app] in NP; [split; auto|]. inversion NP as [|x0 l0 N1 N2]; subst. destruct (IH N2) as (A1 & A2). split; auto. intros y Y [<- | H]; [apply N1; apply in_app_iff; auto|eapply A2; eauto]. }
    destruct NR as (NR & DJ). assert (LR : length faces = length g + length rest) by (rewrite <- (Permutation_length P), app_length; reflexivity).
    assert (NG : g <> []) by (intros Z; rewrite Z in A; cbn in A; lia).
    assert (IN : forall x, In x faces <-> In x g \/ In x rest). { intros x. rewrite <- in_app_iff. split; apply Permutation_in; [symmetry|]; auto. }
    destruct (IH (S count) rest (news ++ merge g) NR ltac:(lia)) as (alone & groups & EQ & (P' & G1 & G2 & G3)).
    exists alone, (g :: groups). split.
    + destruct g as [|x g']; [congruence|]. rewrite Bool.andb_false_r. rewrite EQ. cbn [map concat]. rewrite <- app_assoc. reflexivity.
    + assert (OUT : forall a b, In a g -> In b rest -> coincident a b = false). { intros a b Ha Hb. destruct (coincident a b) eqn:K; auto. exfalso. apply (DJ b Hb). apply (G a b Ha); [apply IN; auto|auto]. }
      assert (AR : forall x, In x alone \/ In x (concat groups) -> In x rest). { intros x X. eapply Permutation_in; [exact P'|]. apply in_app_iff. auto. }
      split; [|split; [|split]].
      * cbn [concat]. rewrite <- P. rewrite <- P'. rewrite !app_assoc. apply Permutation_app_tail. apply Permutation_app_comm.
      * intros h [<- | H]; [|auto]. split; auto. intros a b Ha Hb. apply (G a b Ha); auto.
      * intros a b Ha Hb K. apply IN in Hb as [Hb | Hb]; [|apply G2; auto]. apply k_sym in K. rewrite (OUT b a Hb) in K by (apply AR; auto). discriminate.
      * intros i j g1 g2 a b Hi Hj Ne Ha Hb. destruct i as [|i], j as [|j]; cbn [nth_error] in Hi, Hj; [congruence| | |].
        -- assert (g = g1) by congruence. subst g1. apply OUT; auto. apply AR. right. apply in_concat. exists g2. split; auto. eapply nth_error_In; eauto.
        -- assert (g = g2) by congruence. subst g2. destruct (coincident a b) eqn:K; auto. apply k_sym in K. rewrite (OUT b a Hb) in K; [discriminate|]. apply AR. right. apply in_concat. exists g1. split; auto. eapply nth_error_In; eauto.
        -- eapply (G3 i j g1 g2); eauto.
Qed.
End Rm.
Lemma merge_faces_ok {F} eqb coincident covers merge (faces : list F) : decides_equality eqb -> equivalence coincident -> NoDup faces ->
  exists alone groups, classes coincident faces alone groups /\ forall fuel, 2 * length faces < fuel -> merge_faces eqb coincident covers merge fuel faces = clean_faces eqb covers alone (concat (map merge groups)).
Proof.
  intros E C N. destruct (merge_loop_ok F eqb E coincident C merge (S (2 * length faces)) 0 faces [] N ltac:(lia)) as (alone & groups & EQ & CL). exists alone, groups. split; auto. intros fuel L. unfold merge_faces.
  assert (MONO : forall f1 f2 c fs ns v, f1 <= f2 -> merge_loop eqb coincident merge f1 c fs ns = Ok v -> merge_loop eqb coincident merge f2 c fs ns = Ok v).
  { clear. induction f1 as [|f1 IH]; intros f2 c fs ns v L H; [discriminate|]. destruct f2 as [|f2]; [lia|]. cbn [merge_loop] in *. destruct (remove_all _ _ _); [|discriminate]. cbn [bind] in *. destruct (_ && _); auto. apply IH; auto. lia. }
  rewrite (MONO _ fuel _ _ _ _ L EQ). reflexivity.
Qed.
Lemma clean_faces_ok {F} eqb (covers : F -> F -> bool) (us news : list F) : decides_equality eqb -> let removed := flat_map (fun f1 => flat_map (fun f2 => if covers f1 f2 then [f2] else if covers f2 f1 then [f1] else []) news) us in
  NoDup removed -> exists l, clean_faces eqb covers us news = Ok l /\ Permutation (removed ++ l) (news ++ us).
Proof. intros E. apply clean_ok. auto. Qed.
Lemma clean_refuted : exists (covers : nat -> nat -> bool) us news, NoDup (us ++ news) /\ clean_faces Nat.eqb covers us news = Err ValueError.
Proof. exists (fun a b => Nat.ltb b a), [2; 3], [1]. split; [|vm_compute; reflexivity]. repeat constructor; cbn; intuition discriminate. Qed.
