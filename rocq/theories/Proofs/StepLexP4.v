From Coq Require Import List ZArith Lia.
From Verif.Model Require Import StepText StepLex.
From Verif.Spec Require Import StepLexSpec.
From Verif.Proofs Require Import StepTextP StepLexP StepLexP2 StepLexP3.
Import ListNotations.
Open Scope list_scope.
Open Scope char_scope.

(** ** lines *)
Lemma statements_before before rest : (forall x, In x before -> last_is ";" (clean x) = false) -> forall prev,
  statements (before ++ rest) prev = statements rest (prev ++ concat (map clean before)).
Proof.
  induction before as [|x before IH]; intros H prev; [cbn [app map concat]; rewrite app_nil_r; reflexivity|].
  cbn [app map concat]. cbn [statements]. assert (X := H x (or_introl eq_refl)). unfold clean in X at 1.
  assert (H' : forall y, In y before -> last_is ";" (clean y) = false) by (intros y Y; apply H; right; exact Y).
  unfold clean at 1. destruct (drop_char (ascii_of_nat 10) x) as [|c s] eqn:E.
  - cbn [app]. apply IH, H'.
  - rewrite X. cbn [negb]. rewrite IH by exact H'. rewrite app_assoc. reflexivity.
Qed.
Lemma statements_groups ss groups rest : Forall2 cut_in_lines ss groups -> (forall x, In x rest -> last_is ";" (clean x) = false) ->
  statements (concat groups ++ rest) [] = filter starts_hash ss.
Proof.
  intros F R. induction F as [|s ls ss groups C F IH].
  - cbn [concat app filter]. rewrite <- (app_nil_r rest). rewrite statements_before by exact R. reflexivity.
  - destruct C as (before & final & -> & -> & B & L). cbn [concat]. rewrite <- !app_assoc. rewrite statements_before by exact B. cbn [app statements].
    change (drop_char (ascii_of_nat 10) final) with (clean final). destruct (clean final) as [|c t] eqn:E; [discriminate L|]. rewrite L. cbn [negb filter].
    rewrite IH. destruct (concat (map clean before) ++ c :: t) as [|d u] eqn:U; [destruct (concat (map clean before)); discriminate U|]. cbn [starts_hash]. destruct (Ascii.eqb d "#"); reflexivity.
Qed.
Lemma mapM_Forall2 {A B} (f : A -> res B) l r : Forall2 (fun a b => f a = Ok b) l r -> mapM_ f l = Ok r.
Proof. induction 1 as [|a b l r H F IH]; [reflexivity|]. cbn [mapM_]. rewrite H. cbn [bind]. rewrite IH. reflexivity. Qed.
Lemma read_lines_ok ss groups rest fs : Forall2 cut_in_lines ss groups -> (forall x, In x rest -> last_is ";" (clean x) = false) ->
  Forall2 (fun s f => read_statement s = Ok f) (filter starts_hash ss) fs -> read_lines (concat groups ++ rest) = Ok fs.
Proof. intros F R H. unfold read_lines. rewrite (statements_groups ss groups rest F R). apply mapM_Forall2, H. Qed.
Lemma mapM_Err {A B} (f : A -> res B) pre a post r e : Forall2 (fun a b => f a = Ok b) pre r -> f a = Err e -> mapM_ f (pre ++ a :: post) = Err e.
Proof. induction 1 as [|x y pre r H F IH]; intros E; cbn [app mapM_]; [rewrite E; reflexivity|]. rewrite H. cbn [bind]. rewrite IH by exact E. reflexivity. Qed.
Lemma read_lines_err ss groups rest pre s post fs e : Forall2 cut_in_lines ss groups -> (forall x, In x rest -> last_is ";" (clean x) = false) ->
  filter starts_hash ss = pre ++ s :: post -> Forall2 (fun s f => read_statement s = Ok f) pre fs -> read_statement s = Err e -> read_lines (concat groups ++ rest) = Err e.
Proof. intros F R E H X. unfold read_lines. rewrite (statements_groups ss groups rest F R), E. eapply mapM_Err; eassumption. Qed.

(** ** complex entities *)
Lemma sub_plain s : ~ In "(" s -> ~ In ")" s -> forall c name arg names args r, c <> 0%Z -> sub_scan (s ++ r) c name arg names args = sub_scan r c name (arg ++ s) names args.
Proof.
  induction s as [|a s IH]; intros N1 N2 c name arg names args r C; [cbn [app]; rewrite app_nil_r; reflexivity|]. cbn [app sub_scan].
  rewrite (proj2 (chr_neq a "(")) by (intros ->; apply N1; left; reflexivity). rewrite (proj2 (chr_neq a ")")) by (intros ->; apply N2; left; reflexivity).
  rewrite (proj2 (Z.eqb_neq c 0) C). rewrite IH; [rewrite <- app_assoc; reflexivity| | |exact C]; intros H; [apply N1|apply N2]; right; exact H.
Qed.
Definition balanced (s : text) : Prop := forall c name arg names args r, (1 <= c)%Z -> sub_scan (s ++ r) c name arg names args = sub_scan r c name (arg ++ s) names args.
Lemma bal_plain s : ~ In "(" s -> ~ In ")" s -> balanced s.
Proof. intros A B c name arg names args r C. apply sub_plain; [exact A|exact B|lia]. Qed.
Lemma bal_app s t : balanced s -> balanced t -> balanced (s ++ t).
Proof. intros A B c name arg names args r C. rewrite <- app_assoc, A by exact C. rewrite B by exact C. rewrite app_assoc. reflexivity. Qed.
Lemma scan_openP c name arg names args r : (1 <= c)%Z -> sub_scan ("(" :: r) c name arg names args = sub_scan r (c + 1) name (arg ++ ["("]) names args.
Proof.
  intros C. cbn [sub_scan]. change (Ascii.eqb "(" "(") with true. cbv iota. rewrite (proj2 (Z.eqb_neq (c + 1) 1)) by lia. reflexivity.
Qed.
Lemma scan_closeP c name arg names args r : (2 <= c)%Z -> sub_scan (")" :: r) c name arg names args = sub_scan r (c - 1) name (arg ++ [")"]) names args.
Proof.
  intros C. cbn [sub_scan]. change (Ascii.eqb ")" "(") with false. change (Ascii.eqb ")" ")") with true. cbv iota. rewrite (proj2 (Z.eqb_neq (c - 1) 0)) by lia. reflexivity.
Qed.
Lemma bal_paren s : balanced s -> balanced (paren s).
Proof.
  intros A c name arg names args r C. unfold paren. cbn [app]. rewrite scan_openP by exact C. rewrite <- app_assoc. rewrite A by lia. cbn [app]. rewrite scan_closeP by lia.
  replace (c + 1 - 1)%Z with c by lia. f_equal. rewrite <- !app_assoc. reflexivity.
Qed.
Lemma bal_commas l : Forall balanced l -> balanced (commas l).
Proof.
  induction 1 as [|x l X F IH]; [apply bal_plain; intros []|]. destruct l as [|y l]; [exact X|]. rewrite commas_cons. apply bal_app; [exact X|].
  change ("," :: commas (y :: l)) with ([","] ++ commas (y :: l)). apply bal_app; [apply bal_plain; intros [E | []]; discriminate E|exact IH].
Qed.
Lemma bal_item a : item_ok a -> balanced (item_text a).
Proof. intros O. apply bal_plain; apply item_notin; try exact O; [apply o_open|apply o_close]. Qed.
Lemma bal_arg a : arg_ok a -> balanced (arg_text a).
Proof.
  intros O. destruct a as [a|q|l|l|l]; cbn [arg_ok arg_text] in *.
  - apply bal_item, O.
  - apply bal_plain; (intros [E | H]; [discriminate E|]; apply in_app_or in H as [H | [E | []]]; [|discriminate E]; revert H; apply plain_notin; [exact O|]); [apply np_open|apply np_close].
  - apply bal_paren, bal_plain; apply toks_notin; try exact O; try discriminate; [apply o_open|apply o_close].
  - apply bal_paren, bal_plain; apply refs_notin; try discriminate; [apply o_open|apply o_close].
  - apply bal_paren, bal_commas. apply Forall_forall. intros x X. apply in_map_iff in X as (r & <- & R). apply bal_paren, bal_commas.
    apply Forall_forall. intros y Y. apply in_map_iff in Y as (a & <- & A). apply bal_item. destruct O as [_ O]. destruct (proj1 (Forall_forall _ _) O r R) as [_ G]. exact (proj1 (Forall_forall _ _) G a A).
Qed.
Lemma sub_name n : ~ In "(" n -> ~ In ")" n -> forall name arg names args r, sub_scan (n ++ r) 0 name arg names args = sub_scan r 0 (name ++ n) arg names args.
Proof.
  induction n as [|a s IH]; intros N1 N2 name arg names args r; [cbn [app]; rewrite app_nil_r; reflexivity|]. cbn [app sub_scan].
  rewrite (proj2 (chr_neq a "(")) by (intros ->; apply N1; left; reflexivity). rewrite (proj2 (chr_neq a ")")) by (intros ->; apply N2; left; reflexivity). cbn [Z.eqb].
  rewrite IH; [rewrite <- app_assoc; reflexivity| |]; intros H; [apply N1|apply N2]; right; exact H.
Qed.
Lemma part_scan p : part_ok p -> forall names args r, sub_scan (sub_text p ++ r) 0 [] [] names args = sub_scan r 0 [] [] (names ++ [fst p]) (args ++ [commas (map arg_text (snd p))]).
Proof.
  intros (K & C & A) names args r. destruct (keyword_notin _ K) as [K1 K2]. unfold sub_text. rewrite <- app_assoc. rewrite sub_name by assumption. cbn [app].
  unfold paren. cbn [app sub_scan]. change (Ascii.eqb "(" "(") with true. cbv iota. change ((0 + 1 =? 1)%Z) with true. cbv iota. rewrite <- app_assoc.
  assert (B : balanced (commas (map arg_text (snd p)))).
  { apply bal_commas. destruct A as [-> | (_ & F & _)]; [constructor|]. apply Forall_forall. intros x X. apply in_map_iff in X as (a & <- & I1). apply bal_arg. exact (proj1 (Forall_forall _ _) F a I1). }
  rewrite B by lia. cbn [app sub_scan]. reflexivity.
Qed.
Lemma parts_scan parts : Forall part_ok parts -> forall names args r, sub_scan (flat_map sub_text parts ++ r) 0 [] [] names args
  = sub_scan r 0 [] [] (names ++ map fst parts) (args ++ map (fun p => commas (map arg_text (snd p))) parts).
Proof.
  induction 1 as [|p parts P F IH]; intros names args r; [cbn [flat_map map app]; rewrite !app_nil_r; reflexivity|]. cbn [flat_map map]. rewrite <- app_assoc, part_scan by exact P.
  rewrite IH. rewrite <- !app_assoc. reflexivity.
Qed.
Lemma arg_spaces a : arg_ok a -> ~ In " " (arg_text a).
Proof.
  intros O. destruct a as [a|q|l|l|l]; [apply p_space, arg_piece; [exact O|auto]..|]. cbn [arg_text arg_ok] in *.
  apply paren_notin; try discriminate. intros H. apply in_commas in H as [E | (x & Ix & X)]; [discriminate E|]. apply in_map_iff in Ix as (r & <- & R). revert X.
  apply paren_notin; try discriminate. apply items_notin; [apply (proj1 (Forall_forall _ _) (proj2 O) r R)|apply o_space|discriminate].
Qed.
Lemma part_spaces p : part_ok p -> ~ In " " (sub_text p).
Proof.
  intros (K & C & A). destruct (keyword_notin _ K) as [K1 K2]. unfold sub_text. apply not_in_app; [exact K2|]. apply paren_notin; try discriminate.
  intros H. apply in_commas in H as [E | (x & Ix & X)]; [discriminate E|]. apply in_map_iff in Ix as (a & <- & I1). destruct A as [E | (_ & F & _)]; [rewrite E in I1; destruct I1|].
  revert X. apply arg_spaces. exact (proj1 (Forall_forall _ _) F a I1).
Qed.
Lemma pair_parts parts : Forall part_ok parts -> pair_up (map fst parts) (map (fun p => commas (map arg_text (snd p))) parts) = Ok (map (fun p => (fst p, map arg_text (snd p))) parts).
Proof.
  induction 1 as [|p parts (K & C & A) F IH]; [reflexivity|]. cbn [map pair_up]. rewrite IH. cbn [bind]. do 3 f_equal. destruct A as [E | A]; [rewrite E; reflexivity|].
  assert (X := split_args [] [] (snd p) [] (or_introl eq_refl) (or_introl eq_refl) A). rewrite app_nil_r in X. exact X.
Qed.
Lemma direct a : arg_ok a -> direct_connection (arg_text a) = Ok (direct_refs a).
Proof.
  intros O. destruct a as [a|q|l|l|l]; cbn [arg_ok arg_text direct_refs] in *; try reflexivity. destruct a as [t|i]; cbn [item_ok item_text item_refs] in *.
  - destruct O as [N F]. destruct t as [|c t]; [congruence|]. inversion F as [|? ? (A1 & A2 & A3 & A4 & A5 & _) _]; subst. cbn [direct_connection]. rewrite (proj2 (chr_neq _ _) A5). reflexivity.
  - cbn [direct_connection]. change (Ascii.eqb "#" "#") with true. cbv iota. rewrite to_int_dec. reflexivity.
Qed.
Lemma direct_all args : Forall arg_ok args -> mapM_ direct_connection (map arg_text args) = Ok (map direct_refs args).
Proof. induction 1 as [|a l A F IH]; [reflexivity|]. cbn [map mapM_]. rewrite direct by exact A. cbn [bind]. rewrite IH. reflexivity. Qed.
Lemma complex id b1 b2 parts : blanks b1 -> blanks b2 -> Forall part_ok parts ->
  read_statement (complex_statement id b1 b2 parts)
  = Ok (Function id (join (tx ", ") (map fst parts)) (map arg_read (flat_map snd parts)) (concat (map direct_refs (flat_map snd parts)) ++ concat (map list_refs (flat_map snd parts)))).
Proof.
  intros B1 B2 F. unfold read_statement, complex_statement.
  destruct (head_parts id b1 b2 [] (flat_map sub_text parts ++ [")"; ";"]) B1 B2 (fun H => H) (fun H => H)) as (f & na & E0 & E1 & E2 & E3 & E4). cbn [app] in E0. rewrite E0.
  cbn [bind]. rewrite E1. cbn [bind]. rewrite E2. cbn [bind]. rewrite E3, E4. unfold step_subfunctions. rewrite drop_id.
  2:{ apply not_in_app; [|intros [E | [E | []]]; discriminate E]. intros H. apply in_flat_map in H as (p & P & H). revert H. apply part_spaces. exact (proj1 (Forall_forall _ _) F p P). }
  rewrite parts_scan by exact F. cbn [sub_scan app]. change (Ascii.eqb ")" "(") with false. change (Ascii.eqb ")" ")") with true. change (Ascii.eqb ";" "(") with false. change (Ascii.eqb ";" ")") with false. cbv iota.
  change (0 - 1 =? 0)%Z with false. cbv iota. rewrite pair_parts by exact F. cbn [bind].
  assert (E : concat (map snd (map (fun p => (fst p, map arg_text (snd p))) parts)) = map arg_text (flat_map snd parts)).
  { rewrite map_map. cbn [snd]. clear. induction parts as [|p parts IH]; [reflexivity|]. cbn [map concat flat_map]. rewrite map_app, IH. reflexivity. }
  assert (G : Forall arg_ok (flat_map snd parts)).
  { apply Forall_forall. intros a A. apply in_flat_map in A as (p & P & A). destruct (proj1 (Forall_forall _ _) F p P) as (_ & _ & [X | (_ & X & _)]); [rewrite X in A; destruct A|]. exact (proj1 (Forall_forall _ _) X a A). }
  rewrite E. rewrite direct_all by exact G. cbn [bind]. rewrite read_args by exact G. cbn [bind]. rewrite !map_map. cbn [fst snd]. reflexivity.
Qed.

(** ** what is not read as written *)
Lemma quoted_spaces_refuted : exists s f, s = tx "#2=APPLICATION_CONTEXT('automotive design');" /\ read_statement s = Ok f /\ fun_args f = [Arg (tx "'automotivedesign'")].
Proof. eexists _, _. split; [reflexivity|]. split; vm_compute; reflexivity. Qed.
Lemma quoted_comma_refuted : exists s f, s = tx "#2=DESCRIPTIVE('a',#1,'p,q');" /\ read_statement s = Ok f /\ fun_args f = [Arg (tx "'a'"); Arg (tx "#1"); Arg (tx "'p"); Arg (tx "q'")].
Proof. eexists _, _. split; [reflexivity|]. split; vm_compute; reflexivity. Qed.
Lemma quoted_hash_refuted : exists s f, s = tx "#17=A('x',#3,'p #2, left');" /\ read_statement s = Ok f /\ fun_connections f = [3; 2]%Z.
Proof. eexists _, _. split; [reflexivity|]. split; vm_compute; reflexivity. Qed.
Lemma quoted_hash_error_refuted : exists s, s = tx "#17=A('x',#3,'part #B, left');" /\ read_statement s = Err ValueError.
Proof. eexists. split; [reflexivity|]. vm_compute. reflexivity. Qed.
Lemma quoted_table_refuted : exists s f, s = tx "#4=B(3,'x',((#1,#2),(#3,#4)));" /\ read_statement s = Ok f /\ In (Arg (tx "'x',")) (fun_args f).
Proof. eexists _, _. split; [reflexivity|]. split; [vm_compute; reflexivity|]. vm_compute. tauto. Qed.
Lemma two_on_a_line_refuted : exists fs, read_lines [tx "#1=A('x',2);#2=B('y',3);"] = Ok fs /\ map fun_id fs = [1]%Z.
Proof. eexists. vm_compute. split; reflexivity. Qed.
Lemma indented_refuted : exists fs, read_lines [tx "#17=A('x',#3);"; tx " #18=B('y',#1);"] = Ok fs /\ map fun_id fs = [17]%Z.
Proof. eexists. vm_compute. split; reflexivity. Qed.
Lemma complex_table_refuted : exists f, read_statement (complex_statement 10 [] [] [(tx "BOUNDED_SURFACE", []); (tx "B_SPLINE_SURFACE", [One (Tok (tx "3")); Table [[Rf 11; Rf 12]; [Rf 13; Rf 14]]])]) = Ok f /\ fun_connections f = [].
Proof. eexists. split; vm_compute; reflexivity. Qed.
