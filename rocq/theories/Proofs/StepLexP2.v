From Coq Require Import List ZArith Lia Arith Bool.
From Verif.Model Require Import StepText StepLex.
From Verif.Spec Require Import StepLexSpec.
From Verif.Proofs Require Import StepTextP StepLexP.
Import ListNotations.
Open Scope char_scope.
Open Scope list_scope.

(** ** spaces *)
Lemma drop_id c s : ~ In c s -> drop_char c s = s.
Proof.
  unfold drop_char. induction s as [|a s IH]; intros N; [reflexivity|]. cbn [filter]. rewrite (proj2 (chr_neq a c)) by (intros ->; apply N; left; reflexivity).
  cbn [negb]. rewrite IH; [reflexivity|]. intros H. apply N. right. exact H.
Qed.
Lemma starts_with_split p : forall s, starts_with p s = true -> s = p ++ skipn (len p) s.
Proof.
  induction p as [|a p IH]; intros s H; [reflexivity|]. destruct s as [|b s]; [discriminate H|]. cbn [starts_with] in H. apply andb_true_iff in H as [A B].
  apply chr_eq in A. subst b. cbn [List.length skipn app]. f_equal. apply IH, B.
Qed.
Lemma replace_id x fuel : forall s, replace_all fuel x x s = s.
Proof.
  induction fuel as [|fuel IH]; intros s; [reflexivity|]. destruct s as [|c s]; [reflexivity|]. cbn [replace_all]. destruct (starts_with x (c :: s)) eqn:E.
  - rewrite IH. symmetry. apply starts_with_split, E.
  - rewrite IH. reflexivity.
Qed.
Lemma span_split p s : forall x y, span p s = (x, y) -> s = x ++ y.
Proof.
  induction s as [|a s IH]; intros x y H; cbn [span] in H.
  - apply pair_equal_spec in H as [<- <-]. reflexivity.
  - destruct (p a); [|apply pair_equal_spec in H as [<- <-]; reflexivity]. destruct (span p s) as [u v] eqn:E. apply pair_equal_spec in H as [<- <-].
    cbn [app]. f_equal. apply IH. reflexivity.
Qed.
Lemma quoted_split s x r : quoted_match s = Some (x, r) -> "'" :: s = x ++ r.
Proof.
  unfold quoted_match. destruct (span (isnt "'") s) as [q r1] eqn:E1. destruct r1 as [|c r1]; [discriminate|]. destruct (span (isnt ",") (c :: r1)) as [u r2] eqn:E2.
  destruct r2 as [|d r2]; [discriminate|]. destruct (last_is "'" u); [|discriminate]. intros H. assert (X : "'" :: q ++ u ++ [d] = x /\ r2 = r) by (split; congruence). destruct X as [<- <-].
  apply span_split in E1, E2. rewrite E1, E2. cbn [app]. rewrite <- !app_assoc. reflexivity.
Qed.
Lemma find_quoted_chars fuel : forall s x c, In x (find_quoted fuel s) -> In c x -> In c s.
Proof.
  induction fuel as [|fuel IH]; intros s x c X C; [destruct X|]. destruct s as [|a s]; [destruct X|]. cbn [find_quoted] in X. destruct (Ascii.eqb a "'") eqn:A.
  - apply chr_eq in A. subst a. destruct (quoted_match s) as [[y r]|] eqn:Q.
    + rewrite (quoted_split s y r Q). apply in_or_app. destruct X as [<- | X]; [left; exact C|right; eapply IH; eassumption].
    + right. eapply IH; eassumption.
  - right. eapply IH; eassumption.
Qed.
Lemma no_spaces s : ~ In " " s -> remove_spaces_outside_quotes s = s.
Proof.
  intros N. unfold remove_spaces_outside_quotes. rewrite (drop_id " " s N). assert (H : forall x, In x (find_quoted (len s) s) -> drop_char " " x = x).
  { intros x X. apply drop_id. intros C. apply N. eapply find_quoted_chars; eassumption. }
  revert H. generalize (find_quoted (len s) s) as l. intros l. induction l as [|x l IH]; intros H; [reflexivity|]. cbn [fold_left].
  rewrite (H x (or_introl eq_refl)), replace_id. apply IH. intros y Y. apply H. right. exact Y.
Qed.

(** ** doubles of lists and tables *)
Definition occ (c : ascii) (s : text) : nat := count_occ ascii_dec s c.
Lemma occ_app c s t : occ c (s ++ t) = (occ c s + occ c t)%nat.
Proof. unfold occ. induction s as [|a s IH]; [reflexivity|]. cbn [app count_occ]. destruct (ascii_dec a c); rewrite IH; reflexivity. Qed.
Lemma occ_none c s : ~ In c s -> occ c s = 0%nat.
Proof. intros H. apply count_occ_not_In, H. Qed.
Lemma doubles_count c s : forall i, (occ c s <= 1)%nat -> doubles c s i = [].
Proof.
  induction s as [|a s IH]; intros i H; [reflexivity|]. destruct s as [|b s]; [reflexivity|]. rewrite doubles_cons2. unfold occ in *.
  destruct (Ascii.eqb a c && Ascii.eqb b c) eqn:E.
  - apply andb_true_iff in E as [A B]. apply chr_eq in A, B. subst a b. cbn [count_occ] in H. destruct (ascii_dec c c); [lia|congruence].
  - apply IH. cbn [count_occ] in *. destruct (ascii_dec a c), (ascii_dec b c); lia.
Qed.
Definition tail_rows (bs : list text) : text := flat_map (fun x => "," :: paren x) bs.
Lemma commas_rows b bs : commas (map paren (b :: bs)) = paren b ++ tail_rows bs.
Proof.
  revert b. induction bs as [|y bs IH]; intros b; [unfold tail_rows; cbn; rewrite app_nil_r; reflexivity|]. cbn [map] in *. rewrite commas_cons. rewrite IH. reflexivity.
Qed.
Definition noparen (b : text) : Prop := Forall (fun a => a <> "(" /\ a <> ")") b.
Lemma noparen_open b : noparen b -> ~ In "(" b.
Proof. intros F H. destruct (proj1 (Forall_forall _ _) F _ H) as [A _]. congruence. Qed.
Lemma noparen_close b : noparen b -> ~ In ")" b.
Proof. intros F H. destruct (proj1 (Forall_forall _ _) F _ H) as [_ A]. congruence. Qed.
Lemma occ_paren c b : noparen b -> (c = "(" \/ c = ")") -> occ c (paren b) = 1%nat.
Proof.
  intros F [-> | ->]; unfold paren; change ("(" :: b ++ [")"]) with (["("] ++ b ++ [")"]); rewrite !occ_app, (occ_none _ b) by (first [apply noparen_open, F|apply noparen_close, F]); reflexivity.
Qed.
Lemma rows_open bs : Forall noparen bs -> forall x i, (occ "(" x <= 1)%nat -> doubles "(" (x ++ tail_rows bs ++ [")"]) i = [].
Proof.
  induction 1 as [|y bs Y F IH]; intros x i H.
  - apply doubles_count. rewrite occ_app. cbn. lia.
  - cbn [tail_rows flat_map app]. rewrite (doubles_comma "(" ltac:(discriminate) (len x) x _ i (le_n _)). rewrite (doubles_count "(" x i H). cbn [app].
    rewrite <- app_assoc. apply IH. rewrite occ_paren by auto. lia.
Qed.
Lemma rows_close bs : Forall noparen bs -> forall p i, ~ In ")" p -> doubles ")" ((p ++ [")"]) ++ tail_rows bs ++ [")"]) i = [(i + len ((p ++ [")"]) ++ tail_rows bs ++ [")"]) - 2)%nat].
Proof.
  induction 1 as [|y bs Y F IH]; intros p i H.
  - cbn [tail_rows flat_map app]. rewrite <- app_assoc. cbn [app]. rewrite doubles_two by exact H. rewrite app_length. cbn [List.length]. f_equal. lia.
  - cbn [tail_rows flat_map app]. rewrite (doubles_comma ")" ltac:(discriminate) (len (p ++ [")"])) (p ++ [")"]) _ i (le_n _)).
    rewrite (doubles_count ")" (p ++ [")"])) by (rewrite occ_app, (occ_none ")" p H); cbn; lia). cbn [app].
    assert (N : ~ In ")" ("(" :: y)) by (intros [E|E]; [discriminate E|exact (noparen_close y Y E)]).
    assert (E : (paren y ++ flat_map (fun x => "," :: paren x) bs) ++ [")"] = (("(" :: y) ++ [")"]) ++ tail_rows bs ++ [")"]).
    { unfold paren. rewrite <- app_assoc. reflexivity. }
    rewrite E. rewrite (IH _ _ N). f_equal.     repeat (rewrite app_length || cbn [List.length app]). unfold paren, tail_rows. repeat (rewrite app_length || cbn [List.length app]). lia.
Qed.
Definition table_text (bs : list text) : text := paren (commas (map paren bs)).
Lemma table_open b bs i : Forall noparen (b :: bs) -> doubles "(" (table_text (b :: bs)) i = [i].
Proof.
  intros F. inversion F as [|? ? B Bs]; subst. unfold table_text. rewrite commas_rows. unfold paren. cbn [app]. rewrite doubles_cons2. cbn [Ascii.eqb andb Bool.eqb].
  f_equal. rewrite <- app_assoc. rewrite rows_open; [reflexivity|exact Bs|]. rewrite occ_app, (occ_none "(" b) by (apply noparen_open, B). cbn. lia.
Qed.
Lemma table_close b bs i : Forall noparen (b :: bs) -> doubles ")" (table_text (b :: bs)) i = [(i + len (table_text (b :: bs)) - 2)%nat].
Proof.
  intros F. inversion F as [|? ? B Bs]; subst. unfold table_text. rewrite commas_rows.
  assert (E : paren (paren b ++ tail_rows bs) = (("(" :: "(" :: b) ++ [")"]) ++ tail_rows bs ++ [")"]).
  { unfold paren. cbn [app]. rewrite <- !app_assoc. reflexivity. }
  rewrite E. apply rows_close; [exact Bs|]. intros [X | [X | X]]; try discriminate X. exact (noparen_close b B X).
Qed.
Lemma doubles_commas c l : c <> "," -> Forall (fun x => (occ c x <= 1)%nat) l -> forall i, doubles c (commas l) i = [].
Proof.
  intros C F. induction F as [|x l X F IH]; intros i; [reflexivity|]. destruct l as [|y l]; [apply doubles_count, X|]. rewrite commas_cons.
  rewrite (doubles_comma c C (len x) x _ i (le_n _)), IH, doubles_count by exact X. reflexivity.
Qed.
Lemma doubles_before c A s : c <> "," -> (A = [] \/ exists A', A = A' ++ [","] /\ forall i, doubles c A' i = []) -> forall i, doubles c (A ++ s) i = doubles c s (i + len A).
Proof.
  intros C [-> | (A' & -> & H)] i; [cbn [app List.length]; f_equal; lia|]. rewrite <- app_assoc. cbn [app]. rewrite (doubles_comma c C (len A') A' s i (le_n _)), H, app_length. cbn [app List.length]. f_equal. lia.
Qed.
Lemma doubles_behind c s B : c <> "," -> (B = [] \/ exists B', B = "," :: B' /\ forall i, doubles c B' i = []) -> forall i, doubles c (s ++ B) i = doubles c s i.
Proof.
  intros C [-> | (B' & -> & H)] i; [rewrite app_nil_r; reflexivity|]. rewrite (doubles_comma c C (len s) s B' i (le_n _)), H, app_nil_r. reflexivity.
Qed.

(** ** step_split_arguments *)
Record piece (x : text) : Prop := { p_elem : elem x; p_open : (occ "(" x <= 1)%nat; p_close : (occ ")" x <= 1)%nat; p_space : ~ In " " x; p_semi : ~ In ";" x }.
Definition name_list (nm : text) : list text := match nm with [] => [] | _ => [nm] end.
Definition lead (p : text) : Prop := p = [] \/ p = [","].
Definition finish (t : text) : Prop := t = [] \/ t = [")"; ";"].
Lemma in_commas c l : In c (commas l) -> c = "," \/ exists x, In x l /\ In c x.
Proof.
  induction l as [|x l IH]; [intros []|]. destruct l as [|y l]; [unfold commas; cbn [join]; intros H; right; exists x; split; [left; reflexivity|exact H]|].
  rewrite commas_cons. intros H. apply in_app_or in H as [H | [<- | H]]; [right; exists x; split; [left; reflexivity|exact H]|left; reflexivity|].
  destruct (IH H) as [E | (z & Z & C)]; [left; exact E|right; exists z; split; [right; exact Z|exact C]].
Qed.
Lemma last_semi s : ~ In ";" s -> last_is ";" s = false.
Proof.
  intros N. destruct s as [|a s] using rev_ind; [reflexivity|]. rewrite last_is_app. apply chr_neq. intros ->. apply N, in_or_app. right. left. reflexivity.
Qed.
Lemma cut_finish s t : finish t -> ~ In ";" s -> (if last_is ";" (s ++ t) then removelast (removelast (s ++ t)) else s ++ t) = s.
Proof.
  intros [-> | ->] N.
  - rewrite app_nil_r, last_semi by exact N. reflexivity.
  - replace (s ++ [")"; ";"]) with ((s ++ [")"]) ++ [";"]) by (rewrite <- app_assoc; reflexivity). rewrite last_is_app. cbn [Ascii.eqb Bool.eqb].
    change (if Ascii.eqb ";" ";" then removelast (removelast ((s ++ [")"]) ++ [";"])) else (s ++ [")"]) ++ [";"]) with (removelast (removelast ((s ++ [")"]) ++ [";"]))).
    rewrite !removelast_last. reflexivity.
Qed.
Lemma pieces_elem l : Forall piece l -> Forall elem l. Proof. apply Forall_impl, p_elem. Qed.
Lemma lead_find p l fuel : lead p -> Forall elem l -> (len (p ++ commas l) <= fuel)%nat -> map (strip (Ascii.eqb ",")) (find_arguments fuel (p ++ commas l)) = l.
Proof.
  intros [-> | ->] F L; [apply find_all; assumption|]. cbn [app List.length] in *. destruct fuel as [|fuel]; [lia|]. rewrite find_comma. apply find_all; [exact F|lia].
Qed.
Lemma pieces_in c l : Forall piece l -> c <> "," -> (forall x, piece x -> ~ In c x) -> ~ In c (commas l).
Proof. intros F C H X. destruct (in_commas c l X) as [E | (x & Ix & Cx)]; [congruence|]. exact (H x (proj1 (Forall_forall _ _) F x Ix) Cx). Qed.
Lemma lead_in c p : lead p -> c <> "," -> ~ In c p.
Proof. intros [-> | ->] C; [intros []|intros [E | []]; congruence]. Qed.
Lemma finish_in t : finish t -> ~ In " " t.
Proof. intros [-> | ->]; [intros []|intros [E | [E | []]]; discriminate E]. Qed.
Lemma not_in_app {A} (c : A) s t : ~ In c s -> ~ In c t -> ~ In c (s ++ t).
Proof. intros X Y H. apply in_app_or in H as [H|H]; auto. Qed.

Lemma split_flat nm p l t : lead p -> finish t -> Forall piece l -> l <> [] -> step_split_arguments nm ((p ++ commas l) ++ t) = name_list nm ++ l.
Proof.
  intros P T F Ne. unfold step_split_arguments. fold (name_list nm).
  assert (Sp : ~ In " " (p ++ commas l)) by (apply not_in_app; [apply lead_in; [exact P|discriminate]|apply pieces_in; [exact F|discriminate|intros x X; apply X]]).
  assert (Se : ~ In ";" (p ++ commas l)) by (apply not_in_app; [apply lead_in; [exact P|discriminate]|apply pieces_in; [exact F|discriminate|intros x X; apply X]]).
  rewrite no_spaces by (apply not_in_app; [exact Sp|apply finish_in, T]).
  destruct ((p ++ commas l) ++ t) as [|c0 s0] eqn:E.
  { exfalso. apply app_eq_nil in E as [E _]. apply app_eq_nil in E as [_ E]. destruct l as [|x l]; [congruence|]. inversion F as [|? ? X _]; subst. apply (elem_ne x (p_elem x X)).
    destruct l; [exact E|]. rewrite commas_cons in E. apply app_eq_nil in E as [_ E]. discriminate E. }
  rewrite <- E. rewrite cut_finish by assumption.
  assert (D : doubles "(" (p ++ commas l) 0 = []).
  { assert (G : forall i, doubles "(" (commas l) i = []) by (apply doubles_commas; [discriminate|eapply Forall_impl; [|exact F]; intros x X; apply X]).
    destruct P as [-> | ->]; [apply G|]. change ([","] ++ commas l) with ([] ++ "," :: commas l). rewrite (doubles_comma "(" ltac:(discriminate) 0 [] _ 0 (le_n _)), G. reflexivity. }
  rewrite D. f_equal. apply lead_find; [exact P|apply pieces_elem, F|apply le_n].
Qed.
Definition before (pre : list text) : text := match pre with [] => [] | _ => commas pre ++ [","] end.
Definition behind (post : list text) : text := match post with [] => [] | _ => "," :: commas post end.
Lemma split_table nm p pre bs post t : lead p -> finish t -> Forall piece pre -> Forall elem0 pre -> bs <> [] -> Forall noparen bs -> Forall (fun b => ~ In " " b /\ ~ In ";" b) bs -> Forall piece post ->
  step_split_arguments nm ((p ++ before pre ++ table_text bs ++ behind post) ++ t) = name_list nm ++ pre ++ table_text bs :: post.
Proof.
  intros P T F F0 Ne Nb Sb G. unfold step_split_arguments. fold (name_list nm).
  assert (Tc : forall c, c <> "," -> c <> "(" -> c <> ")" -> (forall b, In b bs -> ~ In c b) -> ~ In c (table_text bs)).
  { intros c C1 C2 C3 H. unfold table_text, paren. intros [E | X]; [congruence|]. apply in_app_or in X as [X | [E | []]]; [|congruence].
    apply in_commas in X as [E | (x & Ix & X)]; [congruence|]. apply in_map_iff in Ix as (b & <- & B). destruct X as [E | X]; [congruence|].
    apply in_app_or in X as [X | [E | []]]; [exact (H b B X)|congruence]. }
  assert (W : forall c, c <> "," -> c <> "(" -> c <> ")" -> (forall x, piece x -> ~ In c x) -> (forall b, In b bs -> ~ In c b) -> ~ In c (p ++ before pre ++ table_text bs ++ behind post)).
  { intros c C1 C2 C3 H1 H2. apply not_in_app; [apply lead_in; assumption|]. apply not_in_app; [|apply not_in_app; [apply Tc; assumption|]].
    - unfold before. destruct pre as [|x pre]; [intros []|]. apply not_in_app; [apply pieces_in; assumption|intros [E | []]; congruence].
    - unfold behind. destruct post as [|x post]; [intros []|]. intros [E | X]; [congruence|]. revert X. apply pieces_in; assumption. }
  assert (Sp : ~ In " " (p ++ before pre ++ table_text bs ++ behind post)).
  { apply W; try discriminate; [intros x X; apply X|]. intros b B. apply (proj1 (Forall_forall _ _) Sb b B). }
  assert (Se : ~ In ";" (p ++ before pre ++ table_text bs ++ behind post)).
  { apply W; try discriminate; [intros x X; apply X|]. intros b B. apply (proj1 (Forall_forall _ _) Sb b B). }
  rewrite no_spaces by (apply not_in_app; [exact Sp|apply finish_in, T]).
  destruct ((p ++ before pre ++ table_text bs ++ behind post) ++ t) as [|c0 s0] eqn:E.
  { exfalso. apply app_eq_nil in E as [E _]. apply app_eq_nil in E as [_ E]. apply app_eq_nil in E as [_ E]. apply app_eq_nil in E as [E _]. discriminate E. }
  rewrite <- E. rewrite cut_finish by assumption. clear E.
  assert (HA : forall c, c <> "," -> (forall x, piece x -> (occ c x <= 1)%nat) -> (p ++ before pre = [] \/ exists A', p ++ before pre = A' ++ [","] /\ forall i, doubles c A' i = [])).
  { intros c C H. assert (K : forall i, doubles c (commas pre) i = []) by (apply doubles_commas; [exact C|eapply Forall_impl; [|exact F]; exact H]).
    unfold before. destruct pre as [|x pre].
    - rewrite app_nil_r. destruct P as [-> | ->]; [left; reflexivity|right; exists []; split; reflexivity].
    - right. exists (p ++ commas (x :: pre)). split; [rewrite app_assoc; reflexivity|]. intros i. destruct P as [-> | ->]; [apply K|].
      change ([","] ++ commas (x :: pre)) with ([] ++ "," :: commas (x :: pre)). rewrite (doubles_comma c C 0 [] _ i (le_n _)), K. reflexivity. }
  assert (HB : forall c, c <> "," -> (forall x, piece x -> (occ c x <= 1)%nat) -> (behind post = [] \/ exists B', behind post = "," :: B' /\ forall i, doubles c B' i = [])).
  { intros c C H. unfold behind. destruct post as [|x post]; [left; reflexivity|]. right. exists (commas (x :: post)). split; [reflexivity|].
    apply doubles_commas; [exact C|eapply Forall_impl; [|exact G]; exact H]. }
  destruct bs as [|b bs]; [congruence|].
  assert (D1 : doubles "(" (p ++ before pre ++ table_text (b :: bs) ++ behind post) 0 = [len (p ++ before pre)]).
  { rewrite app_assoc. rewrite (doubles_before "(" _ _ ltac:(discriminate) (HA "(" ltac:(discriminate) p_open)). rewrite (doubles_behind "(" _ _ ltac:(discriminate) (HB "(" ltac:(discriminate) p_open)).
    rewrite table_open by exact Nb. reflexivity. }
  assert (D2 : doubles ")" (p ++ before pre ++ table_text (b :: bs) ++ behind post) 0 = [(len (p ++ before pre) + len (table_text (b :: bs)) - 2)%nat]).
  { rewrite app_assoc. rewrite (doubles_before ")" _ _ ltac:(discriminate) (HA ")" ltac:(discriminate) p_close)). rewrite (doubles_behind ")" _ _ ltac:(discriminate) (HB ")" ltac:(discriminate) p_close)).
    rewrite table_close by exact Nb. reflexivity. }
  rewrite D1, D2. cbn [map nested_loop].
  assert (LT : (2 <= len (table_text (b :: bs)))%nat) by (unfold table_text, paren; cbn [List.length]; rewrite app_length; cbn [List.length]; lia).
  replace (S (S (len (p ++ before pre) + len (table_text (b :: bs)) - 2))) with (len (p ++ before pre) + len (table_text (b :: bs)))%nat by lia.
  set (A := p ++ before pre). set (TT := table_text (b :: bs)). set (B := behind post).
  assert (EQ : p ++ before pre ++ TT ++ B = A ++ TT ++ B) by (unfold A; rewrite <- app_assoc; reflexivity). rewrite EQ.
  assert (S1 : slice 0 (len A) (A ++ TT ++ B) = A) by (unfold slice; rewrite Nat.sub_0_r; cbn [skipn]; rewrite firstn_app, Nat.sub_diag, firstn_all, firstn_O, app_nil_r; reflexivity).
  assert (S2 : slice (len A) (len A + len TT) (A ++ TT ++ B) = TT).
  { unfold slice. replace (len A + len TT - len A)%nat with (len TT) by lia. rewrite skipn_app, skipn_all, Nat.sub_diag. cbn [app skipn]. rewrite firstn_app, Nat.sub_diag, firstn_all, firstn_O, app_nil_r. reflexivity. }
  assert (S3 : skipn (len A + len TT) (A ++ TT ++ B) = B).
  { rewrite app_assoc. rewrite <- app_length. rewrite skipn_app, skipn_all, Nat.sub_diag. reflexivity. }
  rewrite S1, S2, S3. rewrite <- !app_assoc. f_equal.
  assert (FA : findall A = pre).
  { unfold findall, A, before. destruct pre as [|x pre].
    - rewrite app_nil_r. destruct P as [-> | ->]; reflexivity.
    - destruct P as [-> | ->]; cbn [app].
      + apply find_all0; [exact F0|apply le_n].
      + cbn [List.length]. rewrite find_comma. apply find_all0; [exact F0|apply le_n]. }
  rewrite FA. f_equal. cbn [app]. f_equal. unfold findall, B, behind. destruct post as [|x post]; [reflexivity|]. cbn [List.length]. rewrite find_comma. apply find_all; [apply pieces_elem, G|apply le_n].
Qed.
