(** union_list_of_shells. *)
From Coq Require Import List Arith ZArith Lia Bool Permutation.
From Verif.Model Require Import Base Shells.
From Verif.Spec Require Import ShellsSpec.
Import ListNotations.

Section U.
Variables (S : Type) (touch : S -> S -> bool) (union : S -> S -> option S).
Hypothesis T : union_of_touching touch union.
Notation none a b := (touch a b = false).
Lemma t_sym a b : touch a b = touch b a. Proof. apply T. Qed.
Lemma t_none a b : union a b = None <-> none a b.
Proof.
  destruct T as (_ & H & _). split; intros E.
  - destruct (touch a b) eqn:Q; auto. apply H in Q as (m & Q). congruence.
  - destruct (union a b) as [m|] eqn:Q; auto. exfalso. assert (touch a b = true) by (apply H; eauto). congruence.
Qed.
Lemma t_some a b m c : union a b = Some m -> none a c -> none b c -> none m c.
Proof. intros U A B. destruct T as (_ & _ & H). rewrite (H _ _ _ c U), A, B. reflexivity. Qed.
(** scanning *)
Lemma scan_spec push u : forall l before, match scan union push u before l with
  | Merged m rest => exists x, Permutation (x :: rest) (rev before ++ l) /\ union u x = Some m
  | Pushed x rest => push = true /\ Permutation (x :: rest) (rev before ++ l) /\ none u x
  | Exhausted => (push = true -> l = []) /\ forall x, In x l -> none u x
  end.
Proof.
  induction l as [|x l IH]; intros before; cbn [scan]; [split; auto; intros x []|]. destruct (union u x) as [m|] eqn:E.
  - exists x. split; auto. apply Permutation_middle.
  - apply t_none in E. destruct push.
    + split; auto. split; auto. apply Permutation_middle.
    + specialize (IH (x :: before)). destruct (scan union false u (x :: before) l) as [m rest|y rest|].
      * destruct IH as (y & P & U). exists y. split; auto. cbn [rev] in P. rewrite <- app_assoc in P. exact P.
      * destruct IH as (Q & _). discriminate.
      * destruct IH as (_ & IH). split; [discriminate|]. intros y [<- | I]; auto.
Qed.
(** the invariant: l0 is the list given *)
Definition far (l1 l2 : list S) : Prop := forall a b, In a l1 -> In b l2 -> none a b.
Definition all_made (l0 shells : list S) : Prop := exists groups, Permutation (concat groups) l0 /\ Forall2 (made union) groups shells.
Lemma all_made_perm l0 s s' : Permutation s s' -> all_made l0 s -> all_made l0 s'.
Proof.
  intros P. revert l0. induction P as [|x s s' P IH|x y s|s1 s2 s3 P1 IH1 P2 IH2]; intros l0 (g & A & B); auto.
  - inversion B; subst. exists [] . split; auto.
  - inversion B as [|g1 x0 gs s0 M F]; subst. destruct (IH (concat gs) (ex_intro _ gs (conj (Permutation_refl _) F))) as (gs' & A' & B'). exists (g1 :: gs'). split; [|constructor; auto]. cbn [concat]. etransitivity; [apply Permutation_app_head; exact A'|]. exact A.
  - inversion B as [|g1 x0 gs s0 M F]; subst. inversion F as [|g2 x1 gs2 s1 M2 F2]; subst. exists (g2 :: g1 :: gs2). split; [|repeat constructor; auto]. etransitivity; [|exact A]. cbn [concat]. rewrite !app_assoc. apply Permutation_app_tail. apply Permutation_app_comm.
  - apply IH2. apply IH1. exists g. auto.
Qed.
Lemma all_made_merge l0 a b m s : union a b = Some m -> all_made l0 (a :: b :: s) -> all_made l0 (m :: s).
Proof.
  intros U (g & A & B). inversion B as [|g1 x0 gs s0 M F]; subst. inversion F as [|g2 x1 gs2 s1 M2 F2]; subst. exists ((g1 ++ g2) :: gs2). split; [cbn [concat] in *; rewrite <- app_assoc; exact A|]. constructor; auto. econstructor; eauto.
Qed.
Inductive pairwise : list S -> Prop := pw_nil : pairwise [] | pw_cons a l : far [a] l -> pairwise l -> pairwise (a :: l).
Lemma pairwise_app l a : pairwise l -> far l [a] -> pairwise (l ++ [a]).
Proof.
  induction 1 as [|b l H P IH]; intros F; cbn [app]; [constructor; [intros x y _ []|constructor]|]. constructor.
  - intros x y [<- | []] I. apply in_app_iff in I as [I | [<- | []]]; [apply H; [left|]; auto|]. apply F; [left; auto|left; auto].
  - apply IH. intros x y I J. apply F; [right; auto|auto].
Qed.
(** [waiting]: the head of U was not compared with the rest of U only when U is to be looked at again; when the next scan can end a shell
    (length L = n - 1) the head of U is far from the rest of U, and U has at most two elements *)
Definition inv (l0 shells U L : list S) (n : nat) : Prop :=
  all_made l0 (shells ++ U ++ L) /\ pairwise shells /\ far shells (U ++ L) /\
  (n = Datatypes.S (length L) -> match U with [] => False | [u] => True | [u; v] => none u v | _ => False end) /\
  (length L <= n)%nat /\ (length L = n -> (length U <= 1)%nat).
Lemma far_perm l a b : Permutation a b -> far l a -> far l b.
Proof. intros P F x y I J. apply F; auto. eapply Permutation_in; [symmetry; exact P|auto]. Qed.
Lemma far_merge l a b m s : union a b = Some m -> far l (a :: b :: s) -> far l (m :: s).
Proof.
  intros U F x y I [<- | J]; [|apply F; auto; right; right; auto]. rewrite t_sym. eapply t_some; eauto; rewrite t_sym; apply F; auto; [left|right; left]; auto.
Qed.
Definition after (fuel : nat) (shells : list S) (u : S) (us L : list S) (n : nat) (caller : option (list S)) : res (list S * list S) :=
  match scan union (negb (Z.eqb (Z.of_nat (length L)) (Z.of_nat n - 1))) u [] L with
  | Merged m l => union_loop union fuel shells (m :: us) l n caller
  | Pushed x l => union_loop union fuel shells (x :: u :: us) l n caller
  | Exhausted =>
      let shells := shells ++ [u] in
      match us, L with
      | [], x :: l => union_loop union fuel shells [x] l n caller
      | [], [] => Ok (shells, match caller with None => [] | Some l' => l' end)
      | _, _ => union_loop union fuel shells us L n caller
      end
  end.
Lemma loop_after fuel shells u us L n caller : union_loop union (Datatypes.S fuel) shells (u :: us) L n caller =
  match L with [] => after fuel shells u [] us (length (u :: us)) (match caller with None => Some [] | c => c end) | _ => after fuel shells u us L n caller end.
Proof.
  destruct L as [|x L]; cbn [union_loop]; unfold after.
  - destruct (scan union _ u [] us); try reflexivity; destruct us; destruct caller; reflexivity.
  - destruct (scan union _ u [] (x :: L)); try reflexivity; destruct us; reflexivity.
Qed.
Lemma loop_ok l0 T0 : forall fuel shells U L n caller, inv l0 shells U L n -> U <> [] -> (length U + length L <= T0)%nat ->
  ((length U + length L) * (T0 + 1) + (if (length L =? n - 1)%nat then 0 else length L) < fuel)%nat ->
  exists r, union_loop union fuel shells U L n caller = Ok (r, match caller with None => [] | Some c => c end) /\ all_made l0 r /\ pairwise r.
Proof.
  assert (MAIN : forall fuel shells u us L n caller,
     (forall shells U L n caller, inv l0 shells U L n -> U <> [] -> (length U + length L <= T0)%nat -> ((length U + length L) * (T0 + 1) + (if (length L =? n - 1)%nat then 0 else length L) < fuel)%nat ->
        exists r, union_loop union fuel shells U L n caller = Ok (r, match caller with None => [] | Some c => c end) /\ all_made l0 r /\ pairwise r) ->
     inv l0 shells (u :: us) L n -> (L = [] -> n = 1%nat /\ us = []) -> (length (u :: us) + length L <= T0)%nat -> ((length (u :: us) + length L) * (T0 + 1) + (if (length L =? n - 1)%nat then 0 else length L) < Datatypes.S fuel)%nat ->
     exists r, after fuel shells u us L n caller = Ok (r, match caller with None => [] | Some c => c end) /\ all_made l0 r /\ pairwise r).
  { intros fuel shells u us L n caller IH (I1 & I2 & I3 & I4 & I5 & I6) NL TT MM. unfold after.
    set (push := negb _). pose proof (scan_spec push u L []) as SC. cbn [rev app] in SC.
    assert (PU : push = false <-> n = Datatypes.S (length L)). { unfold push. rewrite negb_false_iff, Z.eqb_eq. lia. }
    destruct (scan union push u [] L) as [m rest|x rest|].
    - destruct SC as (x & P & UX). assert (LR : length L = Datatypes.S (length rest)) by (rewrite <- (Permutation_length P); reflexivity).
      apply IH; [|discriminate|cbn [length] in *; lia|].
      + assert (PP : Permutation (shells ++ (u :: us) ++ L) (u :: x :: shells ++ us ++ rest)).
        { rewrite <- P. etransitivity; [symmetry; apply (Permutation_middle shells (us ++ x :: rest) u)|]. constructor. rewrite (app_assoc shells us (x :: rest)), (app_assoc shells us rest). symmetry. apply Permutation_middle. }
        split; [|split; [auto|split; [|split]]].
        * apply (all_made_perm l0 (m :: shells ++ us ++ rest)); [apply Permutation_middle|]. apply (all_made_merge l0 u x); auto. eapply all_made_perm; [exact PP|auto].
        * cbn [app]. apply (far_merge _ u x); auto. apply (far_perm _ ((u :: us) ++ L)); auto. rewrite <- P. cbn [app]. constructor. symmetry. apply Permutation_middle.
        * intros E. assert (Q : length L = n) by lia. specialize (I6 Q). cbn [length] in I6. destruct us; [exact Logic.I|cbn [length] in I6; lia].
        * split; [lia|]. lia.
      + cbn [length] in *. destruct (length rest =? n - 1)%nat; destruct (length L =? n - 1)%nat; nia.
    - destruct SC as (Q & P & UX). assert (LR : length L = Datatypes.S (length rest)) by (rewrite <- (Permutation_length P); reflexivity).
      assert (NE : n <> Datatypes.S (length L)) by (intros E; apply PU in E; congruence).
      apply IH; [|discriminate|cbn [length] in *; lia|].
      + split; [|split; [auto|split; [|split]]].
        * eapply all_made_perm; [|exact I1]. apply Permutation_app_head. rewrite <- P. cbn [app]. etransitivity; [constructor; symmetry; apply Permutation_middle|]. apply perm_swap.
        * apply (far_perm _ ((u :: us) ++ L)); auto. rewrite <- P. cbn [app]. etransitivity; [constructor; symmetry; apply Permutation_middle|]. apply perm_swap.
        * intros E. assert (Q' : length L = n) by lia. specialize (I6 Q'). cbn [length] in I6. destruct us; [rewrite t_sym; auto|cbn [length] in I6; lia].
        * split; lia.
      + cbn [length] in *. assert (E : (length L =? n - 1)%nat = false) by (apply Nat.eqb_neq; lia). rewrite E in MM. destruct (length rest =? n - 1)%nat; nia.
    - destruct SC as (Q & UX). assert (EN : n = Datatypes.S (length L)). { destruct push eqn:Pp; [|apply PU; auto]. destruct (NL (Q eq_refl)) as (-> & _). rewrite (Q eq_refl). reflexivity. }
      specialize (I4 EN). cbv zeta.
      assert (PW : pairwise (shells ++ [u])). { apply pairwise_app; auto. intros a b A [<- | []]. apply I3; [auto|left; auto]. }
      assert (FU : far [u] (us ++ L)). { intros a b [<- | []] J. apply in_app_iff in J as [J | J]; auto. destruct us as [|v us]; [destruct J|]. destruct us as [|]; [|destruct I4]. destruct J as [<- | []]. auto. }
      assert (FA : far (shells ++ [u]) (us ++ L)). { intros a b A B. apply in_app_iff in A as [A | [<- | []]]; [apply I3; [auto|right; auto]|apply FU; [left|]; auto]. }
      assert (AM : all_made l0 ((shells ++ [u]) ++ us ++ L)) by (rewrite <- app_assoc; exact I1).
      destruct us as [|v us].
      + destruct L as [|x L].
        * exists (shells ++ [u]). split; [destruct caller; reflexivity|]. split; [|auto]. rewrite app_nil_r in AM. exact AM.
        * apply IH; [|discriminate|cbn [length] in *; lia|].
          -- split; [exact AM|]. split; [exact PW|]. split; [exact FA|]. cbn [length] in *. split; [lia|]. split; lia.
          -- cbn [length] in *. assert (E : (length L =? n - 1)%nat = false) by (apply Nat.eqb_neq; lia). rewrite E. assert (E' : (Datatypes.S (length L) =? n - 1)%nat = true) by (apply Nat.eqb_eq; lia). rewrite E' in MM. nia.
      + assert (us = []) by (destruct us; [auto|destruct I4]). subst us.
        assert (GG : exists r, union_loop union fuel (shells ++ [u]) [v] L n caller = Ok (r, match caller with None => [] | Some c => c end) /\ all_made l0 r /\ pairwise r).
        { apply IH; [|discriminate|cbn [length] in *; lia|].
          - split; [exact AM|]. split; [exact PW|]. split; [exact FA|]. cbn [length]. repeat split; auto; lia.
          - cbn [length] in *. assert (E : (length L =? n - 1)%nat = true) by (apply Nat.eqb_eq; lia). rewrite E in *. nia. }
        destruct L; exact GG. }
  induction fuel as [|fuel IH]; intros shells U L n caller IV NU TT MM; [lia|]. destruct U as [|u us]; [congruence|]. rewrite loop_after.
  destruct L as [|x L].
  - destruct (MAIN fuel shells u [] us (length (u :: us)) (match caller with None => Some [] | c => c end) IH) as (r & E & A & B).
    + destruct IV as (I1 & I2 & I3 & _). rewrite app_nil_r in *. split; [exact I1|]. split; auto. split; [exact I3|]. cbn [length]. split; [auto|]. split; lia.
    + intros ->. auto.
    + cbn [length] in *. lia.
    + cbn [length] in *. assert (Q : (length us =? Datatypes.S (length us) - 1)%nat = true) by (apply Nat.eqb_eq; lia). rewrite Q. destruct (0 =? n - 1)%nat; nia.
    + exists r. split; [|auto]. rewrite E. destruct caller; reflexivity.
  - apply MAIN; auto. intros; discriminate.
Qed.
Lemma pairwise_apart l : pairwise l -> apart touch l.
Proof.
  induction 1 as [|a l F P IH]; intros i j x y I J N; [destruct i; discriminate|]. destruct i as [|i], j as [|j]; cbn [nth_error] in *; [congruence| | |].
  - injection I as <-. apply F; [left; auto|]. eapply nth_error_In; eauto.
  - injection J as <-. rewrite t_sym. apply F; [left; auto|]. eapply nth_error_In; eauto.
  - eapply IH; eauto.
Qed.
Lemma singles l : Forall2 (made union) (map (fun a => [a]) l) l. Proof. induction l; constructor; auto. constructor. Qed.
Lemma concat_singles (l : list S) : concat (map (fun a => [a]) l) = l. Proof. induction l; cbn; congruence. Qed.
Lemma union_list_sec l : l <> [] -> exists n r, (forall fuel, (n <= fuel)%nat -> union_list_of_shells union fuel l = Ok (r, [])) /\ all_made l r /\ apart touch r.
Proof.
  intros N. destruct l as [|x l]; [congruence|]. set (M := ((1 + length l) * (1 + length l + 1) + length l)%nat).
  assert (IV : inv (x :: l) [] [x] l (length l)). { split; [exists (map (fun a => [a]) (x :: l)); split; [rewrite concat_singles; reflexivity|apply singles]|]. split; [constructor|]. split; [intros a b []|]. split; [lia|]. cbn [length]. split; lia. }
  assert (G : forall fuel, (M < fuel)%nat -> exists r, union_loop union fuel [] [x] l (length l) None = Ok (r, []) /\ all_made (x :: l) r /\ pairwise r).
  { intros fuel F. apply (loop_ok (x :: l) (1 + length l) fuel [] [x] l (length l) None IV); [discriminate|cbn [length]; lia|]. cbn [length]. unfold M in F. destruct (length l =? length l - 1)%nat; lia. }
  destruct (G (Datatypes.S M) ltac:(lia)) as (r & E & A & B). exists (Datatypes.S M), r. split; [|split; [auto|apply pairwise_apart; auto]].
  intros fuel F. destruct (G fuel ltac:(lia)) as (r' & E' & _). cbn [union_list_of_shells]. rewrite E'.
  assert (MONO : forall f1 f2 s U L n c v, (f1 <= f2)%nat -> union_loop union f1 s U L n c = Ok v -> union_loop union f2 s U L n c = Ok v).
  { clear. induction f1 as [|f1 IH]; intros f2 s U L n c v F E; [discriminate|]. destruct f2 as [|f2]; [lia|]. destruct U as [|u us].
    - destruct L; exact E.
    - rewrite loop_after in *. assert (AA : forall s u us L n c v, after f1 s u us L n c = Ok v -> after f2 s u us L n c = Ok v). { clear - IH F. intros s u us L n c v. unfold after. destruct (scan _ _ _ _ _); [apply IH; lia|apply IH; lia|]. cbv zeta. destruct us; [destruct L; auto; apply IH; lia|apply IH; lia]. } destruct L; apply AA; auto. }
  pose proof (MONO _ _ _ _ _ _ _ _ F E) as Q. congruence.
Qed.
End U.
Lemma union_list_ok {S} touch (union : S -> S -> option S) l : union_of_touching touch union -> l <> [] ->
  exists n r, (forall fuel, (n <= fuel)%nat -> union_list_of_shells union fuel l = Ok (r, [])) /\
    (exists groups, Permutation (concat groups) l /\ Forall2 (made union) groups r) /\ apart touch r.
Proof. intros T N. apply (union_list_sec S touch union T l N). Qed.
Lemma union_list_empty {S} (union : S -> S -> option S) fuel : union_list_of_shells union fuel [] = Err IndexError.
Proof. reflexivity. Qed.
Lemma union_list_input : exists (union : nat -> nat -> option nat) l fuel r left, union_list_of_shells union fuel l = Ok (r, left) /\ left <> l.
Proof. exists (fun _ _ => None), [1; 2], 10, [2; 1], []. split; [vm_compute; reflexivity|discriminate]. Qed.
