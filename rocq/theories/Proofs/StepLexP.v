From Coq Require Import List ZArith Lia Arith Bool.
From Verif.Model Require Import StepText StepLex.
From Verif.Spec Require Import StepLexSpec.
From Verif.Proofs Require Import StepTextP.
Import ListNotations.
Open Scope char_scope.
Open Scope list_scope.
Notation len := List.length.

Lemma isnt_true c a : isnt c a = true <-> a <> c.
Proof. unfold isnt. rewrite negb_true_iff. apply chr_neq. Qed.
Lemma isnt_false c a : isnt c a = false <-> a = c.
Proof. unfold isnt. rewrite negb_false_iff. apply chr_eq. Qed.
Lemma span_all p s : Forall (fun c => p c = true) s -> span p s = (s, []).
Proof. induction 1 as [|c s H F IH]; cbn [span]; [reflexivity|]. rewrite H, IH. reflexivity. Qed.
Lemma span_app p s c r : Forall (fun c => p c = true) s -> p c = false -> span p (s ++ c :: r) = (s, c :: r).
Proof. intros F C. induction F as [|a s H F IH]; cbn [app span]; [rewrite C; reflexivity|]. rewrite H, IH. reflexivity. Qed.
Lemma no_comma s : ~ In "," s -> Forall (fun c => isnt "," c = true) s.
Proof. intros H. apply Forall_forall. intros c C. apply isnt_true. intros ->. apply H, C. Qed.
Lemma last_is_app c s a : last_is c (s ++ [a]) = Ascii.eqb a c.
Proof. unfold last_is. rewrite rev_app_distr. reflexivity. Qed.

(** ** the elements of an argument text *)
Inductive elem0 : text -> Prop :=
| elem_tok c t : ~ In "," (c :: t) -> c <> "(" -> c <> "'" -> elem0 (c :: t)
| elem_paren b : Forall (fun a => a <> "(" /\ a <> ")") b -> elem0 (paren b).
Inductive elem : text -> Prop :=
| elem_0 x : elem0 x -> elem x
| elem_quo q : Forall (fun a => a <> "'" /\ a <> ",") q -> elem ("'" :: q ++ ["'"]).

Lemma find_comma fuel s : find_arguments (S fuel) ("," :: s) = find_arguments fuel s.
Proof. reflexivity. Qed.
Lemma find_nil fuel : find_arguments fuel [] = [].
Proof. destruct fuel; reflexivity. Qed.
Lemma find_tok fuel c t r : ~ In "," (c :: t) -> c <> "(" -> c <> "'" -> find_arguments (S fuel) (c :: t ++ "," :: r) = (c :: t) :: find_arguments fuel ("," :: r).
Proof.
  intros N A B. cbn [find_arguments]. rewrite (proj2 (chr_neq _ _) A), (proj2 (chr_neq _ _) B).
  change (c :: t ++ "," :: r) with ((c :: t) ++ "," :: r). rewrite (span_app _ (c :: t) "," r); [reflexivity|apply no_comma, N|reflexivity].
Qed.
Lemma find_tok_end fuel c t : ~ In "," (c :: t) -> c <> "(" -> c <> "'" -> find_arguments (S fuel) (c :: t) = [c :: t].
Proof.
  intros N A B. cbn [find_arguments]. rewrite (proj2 (chr_neq _ _) A), (proj2 (chr_neq _ _) B).
  rewrite (span_all _ (c :: t)) by (apply no_comma, N). rewrite find_nil. reflexivity.
Qed.
Lemma find_paren fuel b r : Forall (fun a => a <> "(" /\ a <> ")") b -> find_arguments (S fuel) (paren b ++ r) = paren b :: find_arguments fuel r.
Proof.
  intros F. unfold paren. cbn [app find_arguments]. replace ((b ++ [")"]) ++ r) with (b ++ ")" :: r) by (rewrite <- app_assoc; reflexivity).
  change (Ascii.eqb "(" "(") with true. cbv iota. rewrite (span_app _ b ")" r); [reflexivity| |reflexivity].
  eapply Forall_impl; [|exact F]. cbn beta. intros a [A B]. rewrite (proj2 (isnt_true _ _) A), (proj2 (isnt_true _ _) B). reflexivity.
Qed.
Lemma quoted_ok q r : Forall (fun a => a <> "'" /\ a <> ",") q -> quoted_match (q ++ "'" :: "," :: r) = Some ("'" :: q ++ ["'"; ","], r).
Proof.
  intros F. unfold quoted_match. rewrite (span_app (isnt "'") q "'" ("," :: r)); [|eapply Forall_impl; [|exact F]; intros a [A _]; apply isnt_true, A|reflexivity].
  reflexivity.
Qed.
Lemma quoted_none q : Forall (fun a => a <> "'" /\ a <> ",") q -> quoted_match (q ++ ["'"]) = None.
Proof.
  intros F. unfold quoted_match. rewrite (span_app (isnt "'") q "'" []); [|eapply Forall_impl; [|exact F]; intros a [A _]; apply isnt_true, A|reflexivity].
  reflexivity.
Qed.
Lemma find_quo fuel q r : Forall (fun a => a <> "'" /\ a <> ",") q -> find_arguments (S fuel) (("'" :: q ++ ["'"]) ++ "," :: r) = ("'" :: q ++ ["'"; ","]) :: find_arguments fuel r.
Proof.
  intros F. cbn [app]. rewrite <- app_assoc. cbn [app find_arguments]. change (Ascii.eqb "'" "(") with false. change (Ascii.eqb "'" "'") with true. cbv iota.
  rewrite quoted_ok by exact F. reflexivity.
Qed.
Lemma find_quo_end fuel q : Forall (fun a => a <> "'" /\ a <> ",") q -> find_arguments (S fuel) ("'" :: q ++ ["'"]) = ["'" :: q ++ ["'"]].
Proof.
  intros F. cbn [find_arguments]. change (Ascii.eqb "'" "(") with false. change (Ascii.eqb "'" "'") with true. cbv iota. rewrite quoted_none by exact F.
  rewrite (span_all _ ("'" :: q ++ ["'"])); [rewrite find_nil; reflexivity|]. constructor; [reflexivity|]. apply Forall_app. split; [|constructor; [reflexivity|constructor]].
  eapply Forall_impl; [|exact F]. intros a [_ A]. apply isnt_true, A.
Qed.

(** ** strip *)
Lemma strip_id f c s d : f c = false -> f d = false -> strip f (c :: s ++ [d]) = c :: s ++ [d].
Proof.
  intros C D. unfold strip. cbn [lstrip]. rewrite C. cbn [rev]. rewrite rev_app_distr. cbn [rev app lstrip]. rewrite D.
  cbn [rev]. rewrite rev_app_distr, rev_involutive. reflexivity.
Qed.
Lemma strip_one f c : f c = false -> strip f [c] = [c].
Proof. intros C. unfold strip. cbn [lstrip]. rewrite C. cbn [rev app lstrip]. rewrite C. reflexivity. Qed.
Lemma strip_tail f c s d : f c = false -> f d = false -> forall e, f e = true -> strip f ((c :: s ++ [d]) ++ [e]) = c :: s ++ [d].
Proof.
  intros C D e E. unfold strip. cbn [app lstrip]. rewrite C. cbn [rev]. rewrite !rev_app_distr. cbn [rev app lstrip]. rewrite E, D.
  cbn [rev]. rewrite rev_app_distr, rev_involutive. reflexivity.
Qed.
Lemma strip_none f s : Forall (fun c => f c = false) s -> strip f s = s.
Proof.
  intros F. destruct s as [|c s]; [reflexivity|]. inversion F as [|? ? C F' E]; subst. destruct s as [|d s] using rev_ind; [apply strip_one, C|].
  apply strip_id; [exact C|]. apply Forall_app in F' as [_ F']. inversion F'; assumption.
Qed.
Lemma strip_elem x : elem x -> strip (Ascii.eqb ",") x = x.
Proof.
  intros [y [c t N A B | b F] | q F].
  - apply strip_none. apply Forall_forall. intros d D. apply chr_neq. intros <-. apply N, D.
  - unfold paren. apply strip_id; reflexivity.
  - apply strip_id; reflexivity.
Qed.

(** ** lists of elements *)
Lemma elem_ne x : elem x -> x <> [].
Proof. intros [y [c t N A B | b F] | q F]; discriminate. Qed.
Lemma find_elem fuel x r : elem x -> (len (x ++ "," :: r) <= fuel)%nat ->
  exists y f, find_arguments fuel (x ++ "," :: r) = y :: find_arguments f r /\ (len r <= f)%nat /\ strip (Ascii.eqb ",") y = x /\ (elem0 x -> y = x).
Proof.
  intros E L. rewrite app_length in L. cbn [List.length] in L. assert (N := elem_ne x E). assert (Sx := strip_elem x E). destruct E as [y E | q F].
  - destruct E as [c t Nc A B | b F].
    + destruct fuel as [|fuel]; [lia|]. cbn [List.length] in L. exists (c :: t), (pred fuel). split; [|split; [lia|split; [exact Sx|reflexivity]]].
      change ((c :: t) ++ "," :: r) with (c :: t ++ "," :: r). rewrite find_tok by assumption. destruct fuel as [|fuel]; [lia|]. rewrite find_comma. reflexivity.
    + destruct fuel as [|fuel]; [lia|]. unfold paren in L. cbn [List.length] in L. rewrite app_length in L. cbn [List.length] in L.
      exists (paren b), (pred fuel). split; [|split; [lia|split; [exact Sx|reflexivity]]]. rewrite find_paren by exact F. destruct fuel as [|fuel]; [lia|]. rewrite find_comma. reflexivity.
  - destruct fuel as [|fuel]; [lia|]. exists ("'" :: q ++ ["'"; ","]), fuel. split; [apply find_quo, F|]. split; [lia|]. split.
    + replace ("'" :: q ++ ["'"; ","]) with (("'" :: q ++ ["'"]) ++ [","]) by (cbn [app]; rewrite <- app_assoc; reflexivity). apply strip_tail; reflexivity.
    + intros E. exfalso. inversion E as [c t Nc A B X | b Fb X]. congruence.
Qed.
Lemma find_elem_end fuel x : elem x -> (len x <= fuel)%nat -> find_arguments fuel x = [x].
Proof.
  intros E L. assert (N := elem_ne x E). destruct fuel as [|fuel]; [destruct x; [congruence|cbn [List.length] in L; lia]|]. destruct E as [y [c t Nc A B | b F] | q F].
  - apply find_tok_end; assumption.
  - rewrite <- (app_nil_r (paren b)), find_paren by exact F. rewrite find_nil, app_nil_r. reflexivity.
  - apply find_quo_end, F.
Qed.
Lemma commas_cons x y l : commas (x :: y :: l) = x ++ "," :: commas (y :: l). Proof. reflexivity. Qed.
Lemma find_all fuel l : Forall elem l -> (len (commas l) <= fuel)%nat -> map (strip (Ascii.eqb ",")) (find_arguments fuel (commas l)) = l.
Proof.
  intros F. revert fuel. induction F as [|x l E F IH]; intros fuel L; [cbn; rewrite find_nil; reflexivity|]. destruct l as [|y l].
  - cbn [commas join] in *. unfold commas in *. cbn [join] in *. rewrite find_elem_end by assumption. cbn [map]. rewrite strip_elem by exact E. reflexivity.
  - rewrite commas_cons in *. destruct (find_elem fuel x (commas (y :: l)) E L) as (z & f & -> & Lf & Z & _). cbn [map]. rewrite Z, IH by exact Lf. reflexivity.
Qed.
Lemma find_all0 fuel l : Forall elem0 l -> (len (commas l ++ [","]) <= fuel)%nat -> find_arguments fuel (commas l ++ [","]) = l.
Proof.
  intros F. revert fuel. induction F as [|x l E F IH]; intros fuel L.
  - cbn [commas join app] in *. unfold commas in *. cbn [join app List.length] in *. destruct fuel as [|fuel]; [lia|]. rewrite find_comma. apply find_nil.
  - destruct l as [|y l].
    + unfold commas in *. cbn [join] in *. destruct (find_elem fuel x [] (elem_0 x E) L) as (z & f & -> & Lf & _ & Z). rewrite Z by exact E. rewrite find_nil. reflexivity.
    + rewrite commas_cons in *. rewrite <- app_assoc in *. cbn [app] in *. destruct (find_elem fuel x (commas (y :: l) ++ [","]) (elem_0 x E) L) as (z & f & -> & Lf & _ & Z).
      rewrite Z by exact E. rewrite IH by exact Lf. reflexivity.
Qed.

(** ** doubles *)
Lemma doubles_cons2 c a b s i : doubles c (a :: b :: s) i = if Ascii.eqb a c && Ascii.eqb b c then i :: doubles c s (S (S i)) else doubles c (b :: s) (S i).
Proof. reflexivity. Qed.
Lemma doubles_comma c : c <> "," -> forall n x y i, (len x <= n)%nat -> doubles c (x ++ "," :: y) i = doubles c x i ++ doubles c y (i + len x + 1).
Proof.
  intros C. assert (K : Ascii.eqb "," c = false) by (apply chr_neq; congruence).
  induction n as [|n IH]; intros x y i L.
  - destruct x; [|cbn in L; lia]. cbn [app List.length]. replace (i + 0 + 1)%nat with (S i) by lia. cbn [doubles]. destruct y as [|b y]; [reflexivity|]. rewrite K. reflexivity.
  - destruct x as [|a x]; [cbn [app List.length]; replace (i + 0 + 1)%nat with (S i) by lia; cbn [doubles]; destruct y as [|b y]; [reflexivity|]; rewrite K; reflexivity|].
    destruct x as [|b x].
    + cbn [app doubles List.length]. rewrite K, andb_false_r. replace (i + 1 + 1)%nat with (S (S i)) by lia.
      destruct y as [|b y]; [reflexivity|]. cbn [app]. reflexivity.
    + cbn [app List.length] in *. rewrite !doubles_cons2. destruct (Ascii.eqb a c && Ascii.eqb b c).
      * rewrite IH by lia. replace (i + S (S (len x)) + 1)%nat with (S (S i) + len x + 1)%nat by lia. reflexivity.
      * change (b :: x ++ "," :: y) with ((b :: x) ++ "," :: y). rewrite IH by (cbn [List.length]; lia). cbn [List.length]. replace (i + S (S (len x)) + 1)%nat with (S i + S (len x) + 1)%nat by lia. reflexivity.
Qed.
Lemma doubles_none c s : forall i, ~ In c s -> doubles c s i = [].
Proof.
  induction s as [|a s IH]; intros i N; [reflexivity|]. cbn [doubles]. destruct s as [|b s]; [reflexivity|].
  assert (A : Ascii.eqb a c = false) by (apply chr_neq; intros ->; apply N; left; reflexivity). rewrite A. cbn [andb]. apply IH. intros H. apply N. right. exact H.
Qed.
Lemma doubles_after c p s : forall i, ~ In c p -> match s with a :: b :: _ => ~ (a = c /\ b = c) | _ => True end -> ~ In c (tl s) -> doubles c (p ++ s) i = [].
Proof.
  induction p as [|a p IH]; intros i N Q T.
  - cbn [app]. destruct s as [|a s]; [reflexivity|]. cbn [doubles tl] in *. destruct s as [|b s]; [reflexivity|].
    destruct (Ascii.eqb a c) eqn:A, (Ascii.eqb b c) eqn:B; cbn [andb]; try (apply doubles_none; exact T). apply chr_eq in A, B. tauto.
  - cbn [app]. specialize (IH (S i)). destruct (p ++ s) as [|b r] eqn:E; [reflexivity|]. rewrite doubles_cons2.
    assert (A : Ascii.eqb a c = false) by (apply chr_neq; intros ->; apply N; left; reflexivity). rewrite A. cbn [andb]. apply IH; auto. intros H. apply N. right. exact H.
Qed.
(** at most one c *)
Lemma doubles_one c p s i : ~ In c p -> ~ In c s -> doubles c (p ++ c :: s) i = [].
Proof.
  intros P Q. apply doubles_after; [exact P| |exact Q]. destruct s as [|b s]; [exact I|]. intros [_ ->]. apply Q. left. reflexivity.
Qed.
Lemma doubles_two c p i : ~ In c p -> doubles c (p ++ [c; c]) i = [(i + len p)%nat].
Proof.
  revert i. induction p as [|a p IH]; intros i N.
  - cbn [app doubles]. rewrite Ascii.eqb_refl. cbn [andb doubles List.length]. f_equal. lia.
  - cbn [app]. assert (A : Ascii.eqb a c = false) by (apply chr_neq; intros ->; apply N; left; reflexivity).
    assert (E : doubles c (a :: p ++ [c; c]) i = doubles c (p ++ [c; c]) (S i)).
    { cbn [doubles]. destruct (p ++ [c; c]) as [|b r]; [reflexivity|]. rewrite A. reflexivity. }
    rewrite E, IH by (intros H; apply N; right; exact H). cbn [List.length]. f_equal. lia.
Qed.
