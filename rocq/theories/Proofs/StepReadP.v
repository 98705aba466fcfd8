From Coq Require Import List ZArith Bool Lia Permutation Arith.
From Verif.Model Require Import Base StepRead.
From Verif.Spec Require Import StepReadSpec.
Import ListNotations.
Open Scope Z_scope.

Lemma memz_in x l : memz x l = true <-> In x l.
Proof.
  unfold memz. rewrite existsb_exists. split; [intros (y & Y & E); apply Z.eqb_eq in E; subst; exact Y|intros H; exists x; split; [exact H|apply Z.eqb_refl]].
Qed.
Lemma memz_not x l : memz x l = false <-> ~ In x l.
Proof. rewrite <- memz_in. destruct (memz x l); split; congruence. Qed.

(** ** create_node_list *)
Definition size_of (f : sfunction) : nat := length (f_connections f).
Fixpoint left_over (file : step_file) (visited : list Z) : nat :=
  match file with [] => O | (i, f) :: file => ((if memz i visited then 0 else size_of f) + left_over file visited)%nat end.
Lemma left_over_mono file v n : (left_over file (n :: v) <= left_over file v)%nat.
Proof.
  induction file as [|[i f] file IH]; cbn [left_over]; [lia|]. unfold memz in *. cbn [existsb]. destruct (i =? n), (existsb (Z.eqb i) v); cbn [orb]; lia.
Qed.
Lemma left_over_visit file v n f : find_function file n = Some f -> memz n v = false -> (left_over file (n :: v) + size_of f <= left_over file v)%nat.
Proof.
  induction file as [|[i g] file IH]; cbn [left_over find_function]; intros F M; [discriminate F|].
  assert (L := left_over_mono file v n). destruct (Z.eqb_spec i n) as [-> | D].
  - assert (g = f) by congruence. subst g. rewrite M. assert (E : memz n (n :: v) = true) by (apply memz_in; left; reflexivity). rewrite E. lia.
  - specialize (IH F M). assert (E : memz i (n :: v) = memz i v) by (unfold memz; cbn [existsb]; apply Z.eqb_neq in D; rewrite D; reflexivity). rewrite E. lia.
Qed.
Lemma filter_le {A} (p : A -> bool) l : (length (filter p l) <= length l)%nat.
Proof. induction l as [|x l IH]; cbn [filter length]; [lia|]. destruct (p x); cbn [length]; lia. Qed.

Definition settled (file : step_file) (stack visited : list Z) (x : Z) : Prop :=
  In x visited \/ In x stack \/ exists f, find_function file x = Some f /\ f_known f = false.
Record inv (file : step_file) (initial stack visited heads nodes : list Z) : Prop := {
  i_stack : forall x, In x stack -> met file initial x;
  i_visited : forall x, In x visited -> met file initial x /\ known file x;
  i_perm : Permutation visited (heads ++ nodes);
  i_nodup : NoDup visited;
  i_heads : forall x, In x heads -> exists f, find_function file x = Some f /\ f_connections f = [];
  i_nodes : forall x, In x nodes -> exists f, find_function file x = Some f /\ f_connections f <> [];
  i_initial : forall x, In x initial -> settled file stack visited x;
  i_next : forall x f c, In x visited -> find_function file x = Some f -> In c (f_connections f) -> settled file stack visited c }.

Definition node_result (file : step_file) (initial : list Z) (r : res (list Z)) : Prop :=
  (r = Err KeyError /\ exists x, met file initial x /\ find_function file x = None) \/
  exists heads nodes, r = Ok (heads ++ nodes) /\ NoDup (heads ++ nodes) /\ (forall x, In x (heads ++ nodes) <-> met file initial x /\ known file x) /\
    (forall x, met file initial x -> find_function file x <> None) /\
    (forall x, In x heads -> exists f, find_function file x = Some f /\ f_connections f = []) /\
    (forall x, In x nodes -> exists f, find_function file x = Some f /\ f_connections f <> []).
Lemma settled_pop file n stack visited x f : find_function file n = Some f -> (In n visited \/ f_known f = false) ->
  settled file (n :: stack) visited x -> settled file stack visited x.
Proof.
  intros F K [A | [[<- | A] | A]]; [left; exact A| |right; left; exact A|right; right; exact A].
  destruct K as [K|K]; [left; exact K|right; right; exists f; auto].
Qed.
Lemma loop_inv file initial fuel : forall stack visited heads nodes, inv file initial stack visited heads nodes ->
  (length stack + left_over file visited < fuel)%nat -> node_result file initial (node_loop file fuel stack visited heads nodes).
Proof.
  induction fuel as [|fuel IH]; intros stack visited heads nodes H L; [lia|]. cbn [node_loop]. destruct stack as [|node stack].
  - right. exists heads, (rev nodes). split; [reflexivity|].
    assert (Pm : Permutation visited (heads ++ rev nodes)).
    { eapply perm_trans; [apply (i_perm _ _ _ _ _ _ H)|]. apply Permutation_app_head, Permutation_rev. }
    split; [eapply Permutation_NoDup; [exact Pm|apply (i_nodup _ _ _ _ _ _ H)]|].
    assert (A : forall x, met file initial x -> In x visited \/ exists f, find_function file x = Some f /\ f_known f = false).
    { intros x M. induction M as [x X|m x f M IHm F K X].
      - destruct (i_initial _ _ _ _ _ _ H x X) as [B | [[] | B]]; auto.
      - destruct IHm as [V | (g & G & KG)]; [|congruence].
        destruct (i_next _ _ _ _ _ _ H m f x V F X) as [B | [[] | B]]; auto. }
    split; [|split; [|split]].
    + intros x. split.
      * intros X. apply (i_visited _ _ _ _ _ _ H). eapply Permutation_in; [apply Permutation_sym; exact Pm|exact X].
      * intros [M (f & F & K)]. destruct (A x M) as [V | (g & G & KG)]; [|congruence]. eapply Permutation_in; [exact Pm|exact V].
    + intros x M. destruct (A x M) as [V | (g & G & _)]; [|congruence]. destruct (i_visited _ _ _ _ _ _ H x V) as (_ & f & F & _). congruence.
    + apply (i_heads _ _ _ _ _ _ H).
    + intros x X. apply (i_nodes _ _ _ _ _ _ H). apply in_rev. exact X.
  - cbn [length] in L. destruct (find_function file node) as [f|] eqn:F.
    2:{ left. split; [reflexivity|]. exists node. split; [apply (i_stack _ _ _ _ _ _ H); left; reflexivity|exact F]. }
    destruct (memz node visited) eqn:V; cbn [negb andb].
    + apply IH; [|lia]. apply memz_in in V. constructor; try apply H.
      * intros x X. apply (i_stack _ _ _ _ _ _ H). right. exact X.
      * intros x X. eapply settled_pop; [exact F|left; exact V|apply (i_initial _ _ _ _ _ _ H x X)].
      * intros x g c X G C. eapply settled_pop; [exact F|left; exact V|apply (i_next _ _ _ _ _ _ H x g c X G C)].
    + destruct (f_known f) eqn:K.
      2:{ apply IH; [|lia]. constructor; try apply H.
          * intros x X. apply (i_stack _ _ _ _ _ _ H). right. exact X.
          * intros x X. eapply settled_pop; [exact F|right; exact K|apply (i_initial _ _ _ _ _ _ H x X)].
          * intros x g c X G C. eapply settled_pop; [exact F|right; exact K|apply (i_next _ _ _ _ _ _ H x g c X G C)]. }
      assert (Mn : met file initial node) by (apply (i_stack _ _ _ _ _ _ H); left; reflexivity).
      assert (LV := left_over_visit file visited node f F V). apply memz_not in V. unfold size_of in LV.
      destruct (f_connections f) as [|c0 cs] eqn:Cf.
      * apply IH; [|cbn [length] in *; lia]. constructor.
        -- intros x X. apply (i_stack _ _ _ _ _ _ H). right. exact X.
        -- intros x [<- | X]; [split; [exact Mn|exists f; auto]|apply (i_visited _ _ _ _ _ _ H x X)].
        -- rewrite <- app_assoc. cbn [app]. eapply perm_trans; [apply perm_skip, (i_perm _ _ _ _ _ _ H)|]. apply Permutation_middle.
        -- constructor; [exact V|apply (i_nodup _ _ _ _ _ _ H)].
        -- intros x X. apply in_app_or in X as [X | [<- | []]]; [apply (i_heads _ _ _ _ _ _ H x X)|exists f; auto].
        -- apply (i_nodes _ _ _ _ _ _ H).
        -- intros x X. destruct (i_initial _ _ _ _ _ _ H x X) as [B | [[<- | B] | B]]; [left; right; exact B|left; left; reflexivity|right; left; exact B|right; right; exact B].
        -- intros x g c [<- | X] G C; [replace g with f in C by congruence; rewrite Cf in C; destruct C|].
           destruct (i_next _ _ _ _ _ _ H x g c X G C) as [B | [[<- | B] | B]]; [left; right; exact B|left; left; reflexivity|right; left; exact B|right; right; exact B].
      * apply IH.
        2:{ rewrite app_length. assert (Y := filter_le (fun x => negb (memz x (node :: visited))) (c0 :: cs)). lia. }
        constructor.
        -- intros x X. apply in_app_or in X as [X | X]; [apply (i_stack _ _ _ _ _ _ H); right; exact X|]. apply filter_In in X as [X _].
           apply (met_next _ _ node x f); auto. rewrite Cf. exact X.
        -- intros x [<- | X]; [split; [exact Mn|exists f; auto]|apply (i_visited _ _ _ _ _ _ H x X)].
        -- rewrite app_assoc. eapply perm_trans; [apply perm_skip, (i_perm _ _ _ _ _ _ H)|]. apply Permutation_cons_append.
        -- constructor; [exact V|apply (i_nodup _ _ _ _ _ _ H)].
        -- apply (i_heads _ _ _ _ _ _ H).
        -- intros x X. apply in_app_or in X as [X | [<- | []]]; [apply (i_nodes _ _ _ _ _ _ H x X)|exists f; split; [exact F|rewrite Cf; discriminate]].
        -- intros x X. destruct (i_initial _ _ _ _ _ _ H x X) as [B | [[<- | B] | B]]; [left; right; exact B|left; left; reflexivity|right; left; apply in_or_app; left; exact B|right; right; exact B].
        -- intros x g c [<- | X] G C.
           ++ replace g with f in C by congruence. rewrite Cf in C. destruct (memz c (node :: visited)) eqn:M; [left; apply memz_in; exact M|].
              right. left. apply in_or_app. right. apply filter_In. split; [exact C|rewrite M; reflexivity].
           ++ destruct (i_next _ _ _ _ _ _ H x g c X G C) as [B | [[<- | B] | B]]; [left; right; exact B|left; left; reflexivity|right; left; apply in_or_app; left; exact B|right; right; exact B].
Qed.
Lemma left_over_nil file : left_over file [] = connections_of file.
Proof. unfold connections_of. induction file as [|[i f] file IH]; [reflexivity|]. cbn. rewrite IH. reflexivity. Qed.
Lemma node_list_res file initial fuel : (length initial + connections_of file < fuel)%nat -> node_result file initial (create_node_list file fuel initial).
Proof.
  intros L. apply loop_inv; [|rewrite left_over_nil; exact L]. constructor.
  - intros x X. apply met_initial, X.
  - intros x [].
  - apply perm_nil.
  - apply NoDup_nil.
  - intros x [].
  - intros x [].
  - intros x X. right. left. exact X.
  - intros x f c [].
Qed.
(** the statements *)
Lemma node_list_ok file initial fuel : (length initial + connections_of file < fuel)%nat -> (forall x, met file initial x -> find_function file x <> None) ->
  exists heads nodes, create_node_list file fuel initial = Ok (heads ++ nodes) /\ NoDup (heads ++ nodes) /\
    (forall x, In x (heads ++ nodes) <-> met file initial x /\ known file x) /\
    (forall x, In x heads -> exists f, find_function file x = Some f /\ f_connections f = []) /\
    (forall x, In x nodes -> exists f, find_function file x = Some f /\ f_connections f <> []).
Proof.
  intros L H. destruct (node_list_res file initial fuel L) as [(_ & x & M & N) | (h & n & E & D & I1 & _ & A & B)]; [destruct (H x M N)|].
  exists h, n. auto.
Qed.
Lemma node_list_dangling file initial fuel x : (length initial + connections_of file < fuel)%nat -> met file initial x -> find_function file x = None ->
  create_node_list file fuel initial = Err KeyError.
Proof.
  intros L M N. destruct (node_list_res file initial fuel L) as [(E & _) | (h & n & _ & _ & _ & A & _)]; [exact E|]. destruct (A x M N).
Qed.
Lemma node_list_order_refuted : exists file initial fuel l, create_node_list file fuel initial = Ok l /\
  exists i j a b f, nth_error l i = Some a /\ nth_error l j = Some b /\ find_function file a = Some f /\ In b (f_connections f) /\ (i < j)%nat.
Proof.
  exists [(1, SFun true [3; 2]); (2, SFun true [3]); (3, SFun true [4]); (4, SFun true [])], [1], 9%nat, [4; 2; 3; 1]. split; [reflexivity|].
  exists 1%nat, 2%nat, 2, 3, (SFun true [3]). repeat (split; [reflexivity|]). split; [left; reflexivity|lia].
Qed.

(** ** _helper_instantiate *)
Lemma built_fun {V} deps (make : Z -> list V -> res V) n : forall m i v w, built deps make n i v -> built deps make m i w -> v = w.
Proof.
  induction n as [|n IH]; intros m i v w A B; [destruct A|]. destruct m as [|m]; [destruct B|].
  destruct A as (ds & vs & D & F & M). destruct B as (ds' & vs' & D' & F' & M'). replace ds' with ds in F' by congruence. clear D D' ds'.
  assert (E : vs = vs'); [|subst vs'; congruence]. clear M M'. revert vs' F'. induction F as [|d x ds vs X F IHF]; intros vs' F'; inversion F' as [|d' y ds' vs'' Y F'' E1 E2]; subst; [reflexivity|].
  f_equal; [eapply IH; eassumption|apply IHF; assumption].
Qed.
Lemma object_fun {V} deps (make : Z -> list V -> res V) i v w : object_of deps make i v -> object_of deps make i w -> v = w.
Proof. intros (n & A) (m & B). eapply built_fun; eassumption. Qed.
Lemma built_up {V} deps (make : Z -> list V -> res V) n : forall i v, built deps make n i v -> built deps make (S n) i v.
Proof.
  induction n as [|n IH]; intros i v H; [destruct H|]. destruct H as (ds & vs & D & F & M). exists ds, vs. split; [exact D|]. split; [|exact M].
  clear D M. induction F; constructor; auto.
Qed.
Lemma built_le {V} deps (make : Z -> list V -> res V) n m i v : (n <= m)%nat -> built deps make n i v -> built deps make m i v.
Proof. intros L H. induction L; [exact H|]. now apply built_up. Qed.

(** a finite set of entities closed by dependencies, all with an object *)
Definition closed {V} deps (make : Z -> list V -> res V) (U : list Z) : Prop :=
  forall x, In x U -> (exists v, object_of deps make x v) /\ forall ds d, deps x = Some ds -> In d ds -> In d U.
Lemma closed_nil {V} deps (make : Z -> list V -> res V) : closed deps make [].
Proof. intros x []. Qed.
Lemma closed_app {V} deps (make : Z -> list V -> res V) U W : closed deps make U -> closed deps make W -> closed deps make (U ++ W).
Proof.
  intros A B x X. apply in_app_or in X as [X|X].
  - destruct (A x X) as (O & C). split; [exact O|]. intros ds d D I1. apply in_or_app. left. eapply C; eassumption.
  - destruct (B x X) as (O & C). split; [exact O|]. intros ds d D I1. apply in_or_app. right. eapply C; eassumption.
Qed.
Lemma universe {V} deps (make : Z -> list V -> res V) n : forall i v, built deps make n i v -> exists U, In i U /\ closed deps make U.
Proof.
  induction n as [|n IH]; intros i v H; [destruct H|]. assert (O : object_of deps make i v) by (exists (S n); exact H). destruct H as (ds & vs & D & F & M).
  assert (G : exists U, (forall d, In d ds -> In d U) /\ closed deps make U).
  { clear D M O. induction F as [|d x ds vs X F IHF].
    - exists []. split; [intros d []|apply closed_nil].
    - destruct IHF as (U & A & B). destruct (IH d x X) as (W & C & E). exists (W ++ U). split; [|apply closed_app; assumption].
      intros y [<- | Y]; apply in_or_app; [left; exact C|right; apply A, Y]. }
  destruct G as (U & A & B). exists (i :: U). split; [left; reflexivity|]. intros x [<- | X].
  - split; [exists v; exact O|]. intros ds' d D' I1. right. apply A. congruence.
  - destruct (B x X) as (C & E). split; [exact C|]. intros ds' d D' I1. right. eapply E; eassumption.
Qed.
Definition missing {V} (o : objects V) (U : list Z) : nat := length (filter (fun x => match o x with None => true | Some _ => false end) U).
Lemma missing_le {V} (o o' : objects V) U : extends o o' -> (missing o' U <= missing o U)%nat.
Proof.
  intros E. unfold missing. induction U as [|x U IH]; [cbn; lia|]. cbn [filter]. destruct (o x) as [v|] eqn:X.
  - rewrite (E x v X). exact IH.
  - destruct (o' x); cbn [length]; lia.
Qed.
Lemma missing_lt {V} (o o' : objects V) U x : extends o o' -> In x U -> o x = None -> o' x <> None -> (missing o' U < missing o U)%nat.
Proof.
  intros E X A B. unfold missing. induction U as [|y U IH]; [destruct X|]. cbn [filter]. destruct X as [-> | X].
  - rewrite A. destruct (o' x); [|congruence]. assert (L := missing_le o o' U E). unfold missing in L. cbn [length]. lia.
  - specialize (IH X). destruct (o y) as [v|] eqn:Y; [rewrite (E y v Y); exact IH|]. destruct (o' y); cbn [length]; lia.
Qed.
Lemma look_up_ok {V} deps (make : Z -> list V -> res V) n o ds vs : sound deps make o -> Forall2 (built deps make n) ds vs ->
  look_up o ds = inr vs \/ exists d, look_up o ds = inl d /\ In d ds /\ o d = None.
Proof.
  intros S F. induction F as [|d x ds vs X F IH]; [left; reflexivity|]. cbn [look_up]. destruct (o d) as [v|] eqn:O.
  - assert (v = x) by (eapply object_fun; [apply S, O|exists n; exact X]). subst v.
    destruct IH as [-> | (e & -> & I1 & N)]; [left; reflexivity|right; exists e; split; [reflexivity|split; [right; exact I1|exact N]]].
  - right. exists d. split; [reflexivity|]. split; [left; reflexivity|exact O].
Qed.
Lemma set_sound {V} deps (make : Z -> list V -> res V) o i v : sound deps make o -> object_of deps make i v -> sound deps make (set_object o i v) /\ extends o (set_object o i v) /\ set_object o i v i = Some v.
Proof.
  intros S O. unfold set_object. split; [|split].
  - intros j w. destruct (Z.eqb_spec j i) as [-> | D]; intros H; [replace w with v by congruence; exact O|apply S, H].
  - intros j w H. destruct (Z.eqb_spec j i) as [-> | D]; [f_equal; eapply object_fun; [exact O|apply S, H]|exact H].
  - rewrite Z.eqb_refl. reflexivity.
Qed.
Lemma pass_ok {V} deps (make : Z -> list V -> res V) U ids : closed deps make U -> (forall x, In x ids -> In x U) -> forall o, sound deps make o ->
  exists o', sound deps make o' /\ extends o o' /\
  ((pass deps make ids o = (o', Done) /\ forall x, In x ids -> o' x <> None) \/
   exists d, pass deps make ids o = (o', Missing d) /\ In d U /\ o' d = None /\
     match ids with [] => False | i :: _ => o' i <> None \/ exists ds, deps i = Some ds /\ In d ds end).
Proof.
  intros C. induction ids as [|i ids IH]; intros HU o S.
  - exists o. split; [exact S|]. split; [intros j v H; exact H|]. left. split; [reflexivity|intros x []].
  - destruct (C i (HU i (or_introl eq_refl))) as ((v & n & B) & CD). destruct n as [|n]; [destruct B|]. assert (OB : object_of deps make i v) by (exists (Datatypes.S n); exact B).
    destruct B as (ds & vs & D & F & M). cbn [pass]. rewrite D. destruct (look_up_ok deps make n o ds vs S F) as [-> | (d & -> & Id & N)].
    + rewrite M. destruct (set_sound deps make o i v S OB) as (S' & E' & G').
      destruct (IH (fun x X => HU x (or_intror X)) _ S') as (o' & So & Ex & R1). exists o'. split; [exact So|].
      assert (Ei : o' i = Some v) by (apply Ex, G').
      split; [intros j w H; apply Ex, E', H|]. destruct R1 as [(P & Q) | (d & P & Q & N & _)].
      * left. split; [exact P|]. intros x [<- | X]; [congruence|apply Q, X].
      * right. exists d. split; [exact P|]. split; [exact Q|]. split; [exact N|]. left. congruence.
    + exists o. split; [exact S|]. split; [intros j w H; exact H|]. right. exists d. split; [reflexivity|]. split; [eapply CD; eassumption|]. split; [exact N|].
      right. exists ds. auto.
Qed.
Lemma loop_ok {V} deps (make : Z -> list V -> res V) U : closed deps make U -> forall k n o i ids v, (missing o U <= k)%nat -> built deps make n i v -> In i U ->
  (forall x, In x ids -> In x U) -> sound deps make o -> o i = None ->
  exists N o', (forall fuel, (N <= fuel)%nat -> instantiate_loop deps make fuel (i :: ids) o = Ok o') /\ sound deps make o' /\ extends o o' /\ forall x, In x (i :: ids) -> o' x <> None.
Proof.
  intros C. induction k as [|k IHk]; intros n; (induction n as [|n IHn]; [intros ? ? ? ? ? []|]); intros o i ids v L B Ui Uids S O.
  - exfalso. unfold missing in L. assert (X : In i (filter (fun x => match o x with None => true | Some _ => false end) U)) by (apply filter_In; rewrite O; auto).
    destruct (filter _ U); [destruct X|cbn [length] in L; lia].
  - assert (HU : forall x, In x (i :: ids) -> In x U) by (intros x [<- | X]; auto).
    destruct (pass_ok deps make U (i :: ids) C HU o S) as (o' & So & Ex & [(P & Q) | (d & P & Ud & Nd & R1)]).
    + exists 1%nat, o'. split; [|auto]. intros [|fuel] F; [lia|]. cbn [instantiate_loop]. rewrite P. reflexivity.
    + assert (G : exists N o'', (forall fuel, (N <= fuel)%nat -> instantiate_loop deps make fuel (d :: i :: ids) o' = Ok o'') /\ sound deps make o'' /\ extends o' o'' /\ forall x, In x (d :: i :: ids) -> o'' x <> None).
      { destruct (C d Ud) as ((w & m & Bd) & _). destruct R1 as [R1 | (ds & D & Id)].
        - eapply (IHk m); try eassumption. assert (LT := missing_lt o o' U i Ex Ui O R1). lia.
        - destruct B as (ds' & vs & D' & F & M). replace ds' with ds in F by congruence.
          assert (Bx : exists w, built deps make n d w). { clear -F Id. induction F as [|y x ds vs X F IHF]; [destruct Id|]. destruct Id as [-> | Id]; [exists x; exact X|auto]. }
          destruct Bx as (w' & Bw). eapply IHn; try eassumption. assert (LE := missing_le o o' U Ex). lia. }
      destruct G as (N & o'' & A & S'' & E'' & Q). exists (Datatypes.S N), o''. split; [|split; [exact S''|split]].
      * intros [|fuel] F; [lia|]. cbn [instantiate_loop]. rewrite P. apply A. lia.
      * intros j x H. apply E'', Ex, H.
      * intros x X. apply Q. right. exact X.
Qed.
Lemma helper_ok {V} deps (make : Z -> list V -> res V) o node v : sound deps make o -> object_of deps make node v ->
  exists N o', (forall fuel, (N <= fuel)%nat -> helper_instantiate deps make fuel node o = Ok o') /\ sound deps make o' /\ extends o o' /\ o' node = Some v.
Proof.
  intros S (n & B). destruct (universe deps make n node v B) as (U & Un & C). unfold helper_instantiate.
  assert (G : exists N o', (forall fuel, (N <= fuel)%nat -> instantiate_loop deps make fuel [node] o = Ok o') /\ sound deps make o' /\ extends o o' /\ o' node <> None).
  { destruct (o node) as [w|] eqn:O.
    - assert (HU : forall x, In x [node] -> In x U) by (intros x [<- | []]; exact Un).
      destruct (pass_ok deps make U [node] C HU o S) as (o' & So & Ex & [(P & Q) | (d & P & Ud & Nd & R1)]).
      + exists 1%nat, o'. split; [|split; [exact So|split; [exact Ex|apply Q; left; reflexivity]]]. intros [|fuel] F; [lia|]. cbn [instantiate_loop]. rewrite P. reflexivity.
      + destruct (C d Ud) as ((x & m & Bd) & _).
        destruct (loop_ok deps make U C (missing o' U) m o' d [node] x (le_n _) Bd Ud HU So Nd) as (N & o'' & A & S'' & E'' & Q).
        exists (Datatypes.S N), o''. split; [|split; [exact S''|split; [intros j y H; apply E'', Ex, H|apply Q; right; left; reflexivity]]].
        intros [|fuel] F; [lia|]. cbn [instantiate_loop]. rewrite P. apply A. lia.
    - destruct (loop_ok deps make U C (missing o U) n o node [] v (le_n _) B Un (fun x (X : In x []) => match X with end) S O) as (N & o' & A & S' & E' & Q).
      exists N, o'. split; [exact A|]. split; [exact S'|]. split; [exact E'|apply Q; left; reflexivity]. }
  destruct G as (N & o' & A & S' & E' & Q). exists N, o'. split; [exact A|]. split; [exact S'|]. split; [exact E'|].
  destruct (o' node) as [w|] eqn:O; [|congruence]. f_equal. eapply object_fun; [apply S', O|exists n; exact B].
Qed.
Lemma all_ok {V} deps (make : Z -> list V -> res V) nodes : forall o, sound deps make o -> (forall x, In x nodes -> exists v, object_of deps make x v) ->
  exists N o', (forall fuel, (N <= fuel)%nat -> instantiate_all deps make fuel nodes o = Ok o') /\ sound deps make o' /\ extends o o' /\ forall x, In x nodes -> o' x <> None.
Proof.
  induction nodes as [|x nodes IH]; intros o S H.
  - exists 0%nat, o. split; [reflexivity|]. split; [exact S|]. split; [intros i v E; exact E|intros x []].
  - destruct (H x (or_introl eq_refl)) as (v & O). destruct (helper_ok deps make o x v S O) as (N & o1 & A & S1 & E1 & X).
    destruct (IH o1 S1 (fun y Y => H y (or_intror Y))) as (M & o2 & B & S2 & E2 & Q).
    exists (Nat.max N M), o2. split; [|split; [exact S2|split]].
    + intros fuel F. cbn [instantiate_all]. rewrite A by lia. cbn [bind]. apply B. lia.
    + intros i w E. apply E2, E1, E.
    + intros y [<- | Y]; [rewrite (E2 x v X); discriminate|apply Q, Y].
Qed.
(** ** the loops that never end *)
Lemma dangling_forever {V} deps (make : Z -> list V -> res V) d : deps d = None -> forall fuel ids o, instantiate_loop deps make fuel (d :: ids) o = Err OutOfFuel.
Proof.
  intros D. induction fuel as [|fuel IH]; intros ids o; [reflexivity|]. cbn [instantiate_loop pass]. rewrite D. apply IH.
Qed.
Lemma dangling_refuted {V} deps (make : Z -> list V -> res V) i d ds (o : objects V) : deps i = Some (d :: ds) -> deps d = None -> o d = None ->
  forall fuel, helper_instantiate deps make fuel i o = Err OutOfFuel.
Proof.
  intros D N O [|fuel]; [reflexivity|]. unfold helper_instantiate. cbn [instantiate_loop pass]. rewrite D. cbn [look_up]. rewrite O. apply dangling_forever, N.
Qed.
Lemma cycle_refuted {V} deps (make : Z -> list V -> res V) i j ds es (o : objects V) : deps i = Some (j :: ds) -> deps j = Some (i :: es) -> o i = None -> o j = None ->
  forall fuel, helper_instantiate deps make fuel i o = Err OutOfFuel.
Proof.
  intros A B I1 J. unfold helper_instantiate. assert (G : forall fuel ids, instantiate_loop deps make fuel (i :: ids) o = Err OutOfFuel /\ instantiate_loop deps make fuel (j :: ids) o = Err OutOfFuel).
  { induction fuel as [|fuel IH]; intros ids; [split; reflexivity|]. cbn [instantiate_loop pass]. rewrite A, B. cbn [look_up]. rewrite I1, J. split; apply IH. }
  intros fuel. apply G.
Qed.
(** an entity that fails *)
Lemma failing {V} deps (make : Z -> list V -> res V) i ds vs e (o : objects V) fuel : deps i = Some ds -> look_up o ds = inr vs -> make i vs = Err e -> (0 < fuel)%nat ->
  helper_instantiate deps make fuel i o = Err e.
Proof.
  intros D L M F. destruct fuel as [|fuel]; [lia|]. unfold helper_instantiate. cbn [instantiate_loop pass]. rewrite D, L, M. reflexivity.
Qed.
Lemma dangling_file_refuted : exists (deps : Z -> option (list Z)) (make : Z -> list Z -> res Z), (forall i vs, exists v, make i vs = Ok v) /\
  deps 1 = Some [2] /\ deps 2 = None /\ forall fuel, helper_instantiate deps make fuel 1 (fun _ => None) = Err OutOfFuel.
Proof.
  exists (fun i => if i =? 1 then Some [2] else None), (fun i _ => Ok i). split; [intros i vs; exists i; reflexivity|]. split; [reflexivity|]. split; [reflexivity|].
  intros fuel. eapply dangling_refuted; reflexivity.
Qed.
Lemma cycle_file_refuted : exists (deps : Z -> option (list Z)) (make : Z -> list Z -> res Z), (forall i vs, exists v, make i vs = Ok v) /\
  deps 1 = Some [2] /\ deps 2 = Some [1] /\ forall fuel, helper_instantiate deps make fuel 1 (fun _ => None) = Err OutOfFuel.
Proof.
  exists (fun i => if i =? 1 then Some [2] else if i =? 2 then Some [1] else None), (fun i _ => Ok i). split; [intros i vs; exists i; reflexivity|]. split; [reflexivity|]. split; [reflexivity|].
  intros fuel. eapply cycle_refuted; reflexivity.
Qed.
