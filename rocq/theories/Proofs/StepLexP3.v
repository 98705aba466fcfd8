From Coq Require Import List ZArith Lia Decimal DecimalString.
From Verif.Model Require Import StepText StepLex.
From Verif.Spec Require Import StepLexSpec.
From Verif.Proofs Require Import StepTextP StepLexP StepLexP2.
Import ListNotations.
Open Scope list_scope.
Open Scope char_scope.

(** ** the characters of numbers *)
Definition num_char (c : ascii) : Prop := plain_char c /\ c <> "=".
Ltac numc := repeat split; (discriminate || reflexivity).
Lemma uint_num d : Forall num_char (tx (NilEmpty.string_of_uint d)).
Proof. induction d; cbn; constructor; try assumption; numc. Qed.
Lemma nz_num d : Forall num_char (tx (NilZero.string_of_uint d)).
Proof. destruct d; try apply (uint_num (Decimal.D0 Decimal.Nil)); match goal with |- Forall _ (tx (NilZero.string_of_uint ?x)) => exact (uint_num x) end. Qed.
Lemma dec_num i : Forall num_char (dec i).
Proof. unfold dec. destruct (Z.to_int i) as [d|d]; cbn; [apply nz_num|]. constructor; [numc|apply nz_num]. Qed.
Lemma dec_plain i : Forall plain_char (dec i).
Proof. eapply Forall_impl; [|apply dec_num]. intros c [C _]. exact C. Qed.
Lemma dec_ne i : dec i <> [].
Proof. intros E. assert (H := int_dec i). rewrite E in H. discriminate H. Qed.
Lemma plain_notin c t : Forall plain_char t -> ~ plain_char c -> ~ In c t.
Proof. intros F N H. apply N. exact (proj1 (Forall_forall _ _) F c H). Qed.
Ltac np := let H := fresh in intros (? & ? & ? & ? & ? & ? & H); first [congruence | discriminate H].
Lemma np_comma : ~ plain_char ",". Proof. np. Qed.
Lemma np_open : ~ plain_char "(". Proof. np. Qed.
Lemma np_close : ~ plain_char ")". Proof. np. Qed.
Lemma np_quote : ~ plain_char "'". Proof. np. Qed.
Lemma np_hash : ~ plain_char "#". Proof. np. Qed.
Lemma np_semi : ~ plain_char ";". Proof. np. Qed.
Lemma np_space : ~ plain_char " ". Proof. np. Qed.
(** a character that occurs in no item *)
Definition outside (c : ascii) : Prop := ~ plain_char c /\ c <> "#".
Lemma item_notin c a : item_ok a -> outside c -> ~ In c (item_text a).
Proof.
  intros O [N H]. destruct a as [t|i]; cbn [item_text item_ok] in *.
  - apply plain_notin; [apply O|exact N].
  - intros [E | E]; [congruence|]. revert E. apply plain_notin; [apply dec_plain|exact N].
Qed.
Lemma o_comma : outside ",". Proof. split; [apply np_comma|discriminate]. Qed.
Lemma item_elem a : item_ok a -> elem0 (item_text a).
Proof.
  intros O. assert (C := item_notin "," a O o_comma). destruct a as [t|i]; cbn [item_text item_ok] in *.
  - destruct O as [N F]. destruct t as [|c t]; [congruence|]. inversion F as [|? ? (A1 & A2 & A3 & A4 & A5) _]; subst. constructor; assumption.
  - constructor; [exact C|discriminate|discriminate].
Qed.
Lemma toks_notin c l : Forall plain l -> outside c -> c <> "," -> ~ In c (commas l).
Proof.
  intros F [N _] C H. apply in_commas in H as [E | (x & Ix & X)]; [congruence|]. revert X. apply plain_notin; [apply (proj1 (Forall_forall _ _) F x Ix)|exact N].
Qed.
Lemma refs_notin c (l : list Z) : outside c -> c <> "," -> ~ In c (commas (map (fun i => "#" :: dec i) l)).
Proof.
  intros [N D] C H. apply in_commas in H as [E | (x & Ix & X)]; [congruence|]. apply in_map_iff in Ix as (i & <- & _). destruct X as [E | X]; [congruence|].
  revert X. apply plain_notin; [apply dec_plain|exact N].
Qed.
Lemma items_notin c l : Forall item_ok l -> outside c -> c <> "," -> ~ In c (commas (map item_text l)).
Proof.
  intros F O C H. apply in_commas in H as [E | (x & Ix & X)]; [congruence|]. apply in_map_iff in Ix as (a & <- & A). revert X. apply item_notin; [apply (proj1 (Forall_forall _ _) F a A)|exact O].
Qed.
Lemma o_open : outside "(". Proof. split; [apply np_open|discriminate]. Qed.
Lemma o_close : outside ")". Proof. split; [apply np_close|discriminate]. Qed.
Lemma o_space : outside " ". Proof. split; [apply np_space|discriminate]. Qed.
Lemma o_semi : outside ";". Proof. split; [apply np_semi|discriminate]. Qed.
Lemma o_quote : outside "'". Proof. split; [apply np_quote|discriminate]. Qed.
Lemma noparen_intro s : ~ In "(" s -> ~ In ")" s -> noparen s.
Proof. intros A B. apply Forall_forall. intros c C. split; intros ->; auto. Qed.
Lemma paren_notin c s : c <> "(" -> c <> ")" -> ~ In c s -> ~ In c (paren s).
Proof. intros A B N [E | H]; [congruence|]. apply in_app_or in H as [H | [E | []]]; [auto|congruence]. Qed.
Lemma piece_paren s : ~ In "(" s -> ~ In ")" s -> ~ In " " s -> ~ In ";" s -> piece (paren s) /\ elem0 (paren s).
Proof.
  intros A B C D. assert (N := noparen_intro s A B). assert (E : elem0 (paren s)) by (constructor; exact N). split; [|exact E]. constructor.
  - constructor. exact E.
  - rewrite occ_paren by auto. lia.
  - rewrite occ_paren by auto. lia.
  - apply paren_notin; [discriminate|discriminate|exact C].
  - apply paren_notin; [discriminate|discriminate|exact D].
Qed.
Lemma arg_piece a : arg_ok a -> ~ is_table a -> piece (arg_text a).
Proof.
  intros O T. destruct a as [a|q|l|l|l]; cbn [arg_ok is_table arg_text] in *; [| | | |tauto].
  - constructor; [constructor; apply item_elem, O| | | |]; try (rewrite occ_none; [lia|]); apply item_notin; try exact O; first [apply o_open|apply o_close|apply o_space|apply o_semi].
  - assert (Q : forall c, ~ plain_char c -> c <> "'" -> ~ In c ("'" :: q ++ ["'"])).
    { intros c N E [X | X]; [congruence|]. apply in_app_or in X as [X | [X | []]]; [|congruence]. revert X. apply plain_notin; assumption. }
    constructor.
    + apply elem_quo. eapply Forall_impl; [|exact O]. intros c (A & B & C & D & _). split; assumption.
    + rewrite occ_none; [lia|]. apply Q; [apply np_open|discriminate].
    + rewrite occ_none; [lia|]. apply Q; [apply np_close|discriminate].
    + apply Q; [apply np_space|discriminate].
    + apply Q; [apply np_semi|discriminate].
  - apply piece_paren; apply toks_notin; try exact O; try discriminate; first [apply o_open|apply o_close|apply o_space|apply o_semi].
  - apply piece_paren; apply refs_notin; try discriminate; first [apply o_open|apply o_close|apply o_space|apply o_semi].
Qed.
Lemma arg_elem0 a : arg_ok a -> ~ is_table a -> ~ is_quoted a -> elem0 (arg_text a).
Proof.
  intros O T Q. destruct a as [a|q|l|l|l]; cbn [arg_ok is_table is_quoted arg_text] in *; [| | | |tauto].
  - apply item_elem, O.
  - tauto.
  - apply piece_paren; apply toks_notin; try exact O; try discriminate; first [apply o_open|apply o_close|apply o_space|apply o_semi].
  - apply piece_paren; apply refs_notin; try discriminate; first [apply o_open|apply o_close|apply o_space|apply o_semi].
Qed.

(** ** the splitting of the arguments of a statement *)
Lemma split_args nm p args t : lead p -> finish t -> args_ok args ->
  step_split_arguments nm ((p ++ commas (map arg_text args)) ++ t) = name_list nm ++ map arg_text args.
Proof.
  intros P T (Ne & F & K). destruct K as [K | (pre & x & post & -> & X & Hpre & Hpost)].
  - apply split_flat; [exact P|exact T| |destruct args; [congruence|discriminate]]. apply Forall_forall. intros y Y. apply in_map_iff in Y as (a & <- & A).
    apply arg_piece; [apply (proj1 (Forall_forall _ _) F a A)|apply K, A].
  - apply Forall_app in F as [F1 F2]. inversion F2 as [|? ? O F3]; subst. destruct x as [a|q|l|l|l]; cbn [is_table] in X; try tauto. destruct O as [L R].
    assert (E : commas (map arg_text (pre ++ Table l :: post)) = before (map arg_text pre) ++ table_text (map (fun r => commas (map item_text r)) l) ++ behind (map arg_text post)).
    { rewrite map_app. cbn [map arg_text]. unfold table_text. rewrite map_map. generalize (paren (commas (map (fun r => paren (commas (map item_text r))) l))). intros z.
      assert (Z : commas (z :: map arg_text post) = z ++ behind (map arg_text post)).
      { unfold behind. destruct (map arg_text post) as [|y ys]; [unfold commas; cbn [join]; rewrite app_nil_r; reflexivity|apply commas_cons]. }
      rewrite <- Z. clear Z. generalize (map arg_text post). intros w. clear. induction pre as [|y pre IH]; [reflexivity|]. cbn [map app] in *.
      destruct (map arg_text pre) as [|y' ys] eqn:Y.
      - cbn [app before] in *. unfold before. rewrite commas_cons. unfold commas at 2. cbn [join]. rewrite <- app_assoc. reflexivity.
      - cbn [app] in *. rewrite commas_cons, IH. unfold before. rewrite commas_cons. rewrite <- !app_assoc. reflexivity. }
    rewrite E. rewrite map_app. cbn [map arg_text].
    replace (paren (commas (map (fun r => paren (commas (map item_text r))) l))) with (table_text (map (fun r => commas (map item_text r)) l)) by (unfold table_text; rewrite map_map; reflexivity).
    apply split_table; [exact P|exact T| | | | | |].
    + apply Forall_forall. intros y Y. apply in_map_iff in Y as (a & <- & A). apply arg_piece; [apply (proj1 (Forall_forall _ _) F1 a A)|apply Hpre, A].
    + apply Forall_forall. intros y Y. apply in_map_iff in Y as (a & <- & A). apply arg_elem0; [apply (proj1 (Forall_forall _ _) F1 a A)|apply Hpre, A|apply Hpre, A].
    + destruct l; [congruence|discriminate].
    + apply Forall_forall. intros y Y. apply in_map_iff in Y as (r & <- & A). destruct (proj1 (Forall_forall _ _) R r A) as [_ I1].
      apply noparen_intro; apply items_notin; try exact I1; try discriminate; first [apply o_open|apply o_close].
    + apply Forall_forall. intros y Y. apply in_map_iff in Y as (r & <- & A). destruct (proj1 (Forall_forall _ _) R r A) as [_ I1].
      split; apply items_notin; try exact I1; try discriminate; first [apply o_space|apply o_semi].
    + apply Forall_forall. intros y Y. apply in_map_iff in Y as (a & <- & A). apply arg_piece; [apply (proj1 (Forall_forall _ _) F3 a A)|apply Hpost, A].
Qed.

(** ** the connections of a text *)
Definition ext (l : list Z) (r : res (list Z)) : res (list Z) := match r with Ok x => Ok (l ++ x) | Err e => Err e end.
Lemma split_skip c a s : ~ In c a -> exists p ps, split_on c s = p :: ps /\ split_on c (a ++ s) = (a ++ p) :: ps.
Proof.
  induction a as [|b a IH]; intros N.
  - cbn [app]. destruct (split_on c s) as [|p ps] eqn:E; [|exists p, ps; split; reflexivity].
    exfalso. destruct s as [|x s]; cbn [split_on] in E; [discriminate E|]. destruct (Ascii.eqb x c); [discriminate E|]. destruct (split_on c s); discriminate E.
  - destruct IH as (p & ps & E1 & E2); [intros H; apply N; right; exact H|]. exists p, ps. split; [exact E1|]. cbn [app split_on].
    rewrite (proj2 (chr_neq b c)) by (intros ->; apply N; left; reflexivity). rewrite E2. reflexivity.
Qed.
Lemma cot_skip a s : ~ In "#" a -> connections_of_text (a ++ s) = connections_of_text s.
Proof. intros N. destruct (split_skip "#" a s N) as (p & ps & E1 & E2). unfold connections_of_text. rewrite E1, E2. reflexivity. Qed.
Lemma last_cases i : exists p c, rev (dec i) = c :: p /\ Ascii.eqb c "'" = false.
Proof.
  destruct (rev (dec i)) as [|c p] eqn:E; [exfalso; apply (dec_ne i); rewrite <- (rev_involutive (dec i)), E; reflexivity|]. exists p, c. split; [reflexivity|].
  apply chr_neq. intros ->. apply (plain_notin "'" (dec i) (dec_plain i) np_quote). rewrite <- (rev_involutive (dec i)), E. apply in_rev. rewrite rev_involutive. left. reflexivity.
Qed.
Lemma to_int_dec i : to_int (dec i) = Ok i.
Proof. unfold to_int. rewrite strip_none; [apply int_dec|]. eapply Forall_impl; [|apply dec_plain]. intros c C. apply C. Qed.
Lemma conn_dec i d p : d = "," \/ d = ")" -> connection (dec i ++ d :: p) = Ok [i].
Proof.
  intros D. unfold connection. destruct (last_cases i) as (w & c & E1 & E2).
  assert (E : hd [] (split_on ")" (hd [] (split_on "," (dec i ++ d :: p)))) = dec i).
  { assert (Nc : ~ In "," (dec i)) by (apply plain_notin; [apply dec_plain|apply np_comma]). assert (Np : ~ In ")" (dec i)) by (apply plain_notin; [apply dec_plain|apply np_close]).
    destruct D as [-> | ->].
    - rewrite split_on_app by exact Nc. cbn [hd]. rewrite split_on_no by exact Np. reflexivity.
    - replace (dec i ++ ")" :: p) with ((dec i ++ [")"]) ++ p) by (rewrite <- app_assoc; reflexivity).
      assert (N : ~ In "," (dec i ++ [")"])) by (apply not_in_app; [exact Nc|intros [E | []]; discriminate E]).
      destruct (split_skip "," _ p N) as (x & xs & _ & ->). cbn [hd]. rewrite <- app_assoc. cbn [app]. rewrite split_on_app by exact Np. reflexivity. }
  rewrite E, E1, E2, to_int_dec. reflexivity.
Qed.
Lemma cot_ref i d s : d = "," \/ d = ")" -> connections_of_text ("#" :: dec i ++ d :: s) = ext [i] (connections_of_text s).
Proof.
  intros D. assert (N : ~ In "#" (dec i ++ [d])).
  { apply not_in_app; [apply plain_notin; [apply dec_plain|apply np_hash]|]. intros [E | []]. destruct D; subst; discriminate. }
  unfold connections_of_text. cbn [split_on Ascii.eqb Bool.eqb]. replace (dec i ++ d :: s) with ((dec i ++ [d]) ++ s) by (rewrite <- app_assoc; reflexivity).
  change (if Ascii.eqb "#" "#" then [] :: split_on "#" ((dec i ++ [d]) ++ s) else match split_on "#" ((dec i ++ [d]) ++ s) with p :: ps => ("#" :: p) :: ps | [] => [["#"]] end) with ([] :: split_on "#" ((dec i ++ [d]) ++ s)).
  destruct (split_skip "#" _ s N) as (p & ps & E1 & E2). rewrite E1, E2. cbn [tl mapM_]. rewrite <- app_assoc. cbn [app]. rewrite conn_dec by exact D.
  cbn [bind]. destruct (mapM_ connection ps); reflexivity.
Qed.
Definition crs (x : text) (l : list Z) : Prop := forall d s, d = "," \/ d = ")" -> connections_of_text (x ++ d :: s) = ext l (connections_of_text s).
Lemma ext_nil r : ext [] r = r. Proof. destruct r; reflexivity. Qed.
Lemma ext_ext l m r : ext l (ext m r) = ext (l ++ m) r. Proof. destruct r; cbn; [rewrite app_assoc|]; reflexivity. Qed.
Lemma crs_none x : ~ In "#" x -> crs x [].
Proof.
  intros N d s D. replace (x ++ d :: s) with ((x ++ [d]) ++ s) by (rewrite <- app_assoc; reflexivity). rewrite ext_nil. apply cot_skip, not_in_app; [exact N|].
  intros [E | []]. destruct D; subst; discriminate.
Qed.
Lemma crs_ref i : crs ("#" :: dec i) [i]. Proof. intros d s D. apply cot_ref, D. Qed.
Lemma crs_paren x l : crs x l -> crs (paren x) l.
Proof.
  intros H d s D. unfold paren. cbn [app]. rewrite <- app_assoc. cbn [app]. change ("(" :: x ++ ")" :: d :: s) with (["("] ++ x ++ ")" :: d :: s).
  rewrite cot_skip by (intros [E | []]; discriminate E). rewrite H by auto. f_equal. change (d :: s) with ([d] ++ s). apply cot_skip. intros [E | []]. destruct D; subst; discriminate.
Qed.
Lemma crs_commas {A} (f : A -> text) (g : A -> list Z) l : Forall (fun a => crs (f a) (g a)) l -> crs (commas (map f l)) (concat (map g l)).
Proof.
  induction 1 as [|a l C F IH]; [apply crs_none; intros []|]. cbn [map concat]. destruct l as [|b l].
  - unfold commas. cbn [map join concat]. rewrite app_nil_r. exact C.
  - cbn [map] in *. rewrite commas_cons. intros d s D. rewrite <- app_assoc. cbn [app]. rewrite C by auto. rewrite IH by exact D. apply ext_ext.
Qed.
Lemma crs_item a : item_ok a -> crs (item_text a) (item_refs a).
Proof. destruct a as [t|i]; intros O; [|apply crs_ref]. apply crs_none. apply plain_notin; [apply O|apply np_hash]. Qed.
Lemma crs_arg a : arg_ok a -> crs (arg_text a) (arg_refs a).
Proof.
  destruct a as [a|q|l|l|l]; cbn [arg_ok arg_text arg_refs]; intros O.
  - apply crs_item, O.
  - apply crs_none. intros [E | H]; [discriminate E|]. apply in_app_or in H as [H | [E | []]]; [|discriminate E]. revert H. apply plain_notin; [exact O|apply np_hash].
  - apply crs_paren, crs_none. intros H. apply in_commas in H as [E | (x & Ix & X)]; [discriminate E|]. revert X. apply plain_notin; [apply (proj1 (Forall_forall _ _) O x Ix)|apply np_hash].
  - apply crs_paren. assert (E : l = concat (map (fun i => [i]) l)) by (clear; induction l; [reflexivity|cbn; congruence]). rewrite E at 2.
    apply crs_commas. apply Forall_forall. intros i _. apply crs_ref.
  - apply crs_paren. apply (crs_commas (fun r => paren (commas (map item_text r))) (fun r => concat (map item_refs r))). apply Forall_forall. intros r R.
    apply crs_paren. apply crs_commas. eapply Forall_impl; [|apply (proj2 (proj1 (Forall_forall _ _) (proj2 O) r R))]. intros a. apply crs_item.
Qed.

(** ** the arguments *)
Lemma mapM_ok {A B} (f : A -> res B) (g : A -> B) l : (forall a, In a l -> f a = Ok (g a)) -> mapM_ f l = Ok (map g l).
Proof.
  induction l as [|a l IH]; intros H; [reflexivity|]. cbn [mapM_ map]. rewrite H by (left; reflexivity). cbn [bind]. rewrite IH by (intros b Hb; apply H; right; exact Hb). reflexivity.
Qed.
Lemma read_arg a : arg_ok a -> read_argument (arg_text a) = Ok (arg_read a, list_refs a).
Proof.
  intros O. unfold read_argument. destruct a as [a|q|l|l|l]; cbn [arg_ok arg_text arg_read list_refs] in *.
  - replace (starts_ref (item_text a)) with false; [reflexivity|]. destruct a as [t|i]; cbn [item_text item_ok] in *.
    + destruct O as [N F]. destruct t as [|c t]; [congruence|]. inversion F as [|? ? (A1 & A2 & _) _]; subst. cbn [starts_ref]. rewrite (proj2 (chr_neq _ _) A2). destruct t; reflexivity.
    + destruct (dec i) eqn:E; reflexivity.
  - assert (E : starts_ref ("'" :: q ++ ["'"]) = false) by (destruct q; reflexivity). rewrite E. reflexivity.
  - assert (E : starts_ref (paren (commas l)) = false).
    { destruct l as [|t l]; [reflexivity|]. inversion O as [|? ? [N F] _]; subst. destruct t as [|c t]; [congruence|]. inversion F as [|? ? (A1 & A2 & A3 & A4 & A5 & _) _]; subst.
      assert (X : exists w, paren (commas ((c :: t) :: l)) = "(" :: c :: w) by (destruct l; [unfold commas; cbn [join]; eexists; reflexivity|rewrite commas_cons; eexists; reflexivity]).
      destruct X as [w X]. refine (eq_trans (f_equal starts_ref X) _). cbn [starts_ref]. rewrite (proj2 (chr_neq _ _) A5). reflexivity. }
    rewrite E. reflexivity.
  - assert (E : starts_ref (paren (commas (map (fun i => "#" :: dec i) l))) = true).
    { destruct l as [|i l]; [congruence|]. cbn [map]. destruct l; reflexivity. }
    rewrite E. assert (E2 : last_is ")" (paren (commas (map (fun i => "#" :: dec i) l))) = true) by (unfold paren; rewrite app_comm_cons, last_is_app; reflexivity).
    rewrite E2. cbn [andb]. assert (E3 := ids_round_trip l O). change (tx "(" ++ step_ids_to_str l ++ tx ")") with (paren (commas (map (fun i => "#" :: dec i) l))) in E3. rewrite E3.
    assert (E4 : mapM_ (fun x => to_int (tl x)) (map (fun i => "#" :: dec i) l) = Ok l).
    { clear. induction l as [|i l IH]; [reflexivity|]. cbn [map mapM_ tl]. rewrite to_int_dec. cbn [bind]. rewrite IH. reflexivity. }
    rewrite E4. reflexivity.
  - assert (E : starts_ref (paren (commas (map (fun r => paren (commas (map item_text r))) l))) = false).
    { destruct O as [N _]. destruct l as [|r l]; [congruence|]. cbn [map]. destruct (map (fun r => paren (commas (map item_text r))) l); reflexivity. }
    rewrite E. reflexivity.
Qed.
Lemma read_args args : Forall arg_ok args -> mapM_ read_argument (map arg_text args) = Ok (map (fun a => (arg_read a, list_refs a)) args).
Proof.
  induction 1 as [|a l A F IH]; [reflexivity|]. cbn [map mapM_]. rewrite read_arg by exact A. cbn [bind]. rewrite IH. reflexivity.
Qed.

(** ** statements *)
Lemma cut_at_app c a s : ~ In c a -> cut_at c (a ++ c :: s) = Ok (a, s).
Proof.
  induction a as [|b a IH]; intros N; cbn [app cut_at]; [rewrite Ascii.eqb_refl; reflexivity|]. rewrite (proj2 (chr_neq b c)) by (intros ->; apply N; left; reflexivity).
  rewrite IH by (intros H; apply N; right; exact H). reflexivity.
Qed.
Lemma lstrip_blanks b s : blanks b -> lstrip is_space (b ++ s) = lstrip is_space s.
Proof. induction 1 as [|c b C F IH]; [reflexivity|]. subst c. cbn [app lstrip]. change (is_space " ") with true. exact IH. Qed.
Lemma blanks_rev b : blanks b -> blanks (rev b).
Proof. intros F. apply Forall_forall. intros c C. apply in_rev in C. exact (proj1 (Forall_forall _ _) F c C). Qed.
Lemma strip_blanks s b : s <> [] -> Forall (fun c => is_space c = false) s -> blanks b -> strip is_space (s ++ b) = s.
Proof.
  intros N F B. unfold strip. destruct s as [|c s]; [congruence|]. cbn [app lstrip]. inversion F as [|? ? C _]; subst. rewrite C.
  rewrite app_comm_cons, rev_app_distr. rewrite lstrip_blanks by (apply blanks_rev, B). rewrite <- (rev_involutive (c :: s)) at 2. f_equal.
  destruct (rev (c :: s)) as [|d r] eqn:E; [reflexivity|]. cbn [lstrip]. assert (D : In d (c :: s)) by (apply in_rev; rewrite E; left; reflexivity).
  rewrite (proj1 (Forall_forall _ _) F d D). reflexivity.
Qed.
Lemma to_int_blanks i b : blanks b -> to_int (dec i ++ b) = Ok i.
Proof. intros B. unfold to_int. rewrite strip_blanks; [apply int_dec|apply dec_ne| |exact B]. eapply Forall_impl; [|apply dec_plain]. intros c C. apply C. Qed.
Lemma blanks_notin c b : blanks b -> c <> " " -> ~ In c b.
Proof. intros F C H. apply C. exact (proj1 (Forall_forall _ _) F c H). Qed.
Lemma drop_blanks b s : blanks b -> drop_char " " (b ++ s) = drop_char " " s.
Proof. induction 1 as [|c b C F IH]; [reflexivity|]. subst c. exact IH. Qed.
Lemma head_parts id b1 b2 name s : blanks b1 -> blanks b2 -> ~ In "(" name -> ~ In " " name ->
  exists f na, cut_at "=" ("#" :: dec id ++ b1 ++ "=" :: b2 ++ name ++ "(" :: s) = Ok f /\ to_int (tl (fst f)) = Ok id /\ cut_at "(" (snd f) = Ok na /\ drop_char " " (fst na) = name /\ snd na = s.
Proof.
  intros B1 B2 N1 N2. exists ("#" :: dec id ++ b1, b2 ++ name ++ "(" :: s), (b2 ++ name, s). split; [|split; [|split; [|split]]].
  - replace ("#" :: dec id ++ b1 ++ "=" :: b2 ++ name ++ "(" :: s) with (("#" :: dec id ++ b1) ++ "=" :: b2 ++ name ++ "(" :: s) by (cbn [app]; rewrite <- app_assoc; reflexivity).
    apply cut_at_app. intros [E | H]; [discriminate E|]. apply in_app_or in H as [H | H].
    + destruct (proj1 (Forall_forall _ _) (dec_num id) _ H) as [_ X]. congruence.
    + revert H. apply blanks_notin; [exact B1|discriminate].
  - cbn [fst tl]. apply to_int_blanks, B1.
  - cbn [snd]. rewrite app_assoc. apply cut_at_app. apply not_in_app; [apply blanks_notin; [exact B2|discriminate]|exact N1].
  - cbn [fst]. rewrite drop_blanks by exact B2. apply drop_id, N2.
  - reflexivity.
Qed.
Lemma keyword_notin n : keyword n -> ~ In "(" n /\ ~ In " " n.
Proof. intros [_ F]. split; intros H; destruct (proj1 (Forall_forall _ _) F _ H) as [A B]; congruence. Qed.
Lemma conn_args p args : lead p -> Forall arg_ok args -> connections_of_text ((p ++ commas (map arg_text args)) ++ [")"; ";"]) = Ok (concat (map arg_refs args)).
Proof.
  intros P F. rewrite <- app_assoc. rewrite cot_skip by (apply lead_in; [exact P|discriminate]).
  rewrite (crs_commas arg_text arg_refs args); [|eapply Forall_impl; [|exact F]; intros a; apply crs_arg|auto]. change (connections_of_text [";"]) with (Ok (@nil Z)). cbn [ext]. rewrite app_nil_r. reflexivity.
Qed.
Lemma quote_comma_app q s : ~ In "'" q -> quote_comma (q ++ "'" :: "," :: s) = Some (q ++ ["'"], "," :: s).
Proof.
  induction q as [|c q IH]; intros N; [reflexivity|]. cbn [app]. cbn [quote_comma]. rewrite IH by (intros H; apply N; right; exact H).
  rewrite (proj2 (chr_neq c "'")) by (intros ->; apply N; left; reflexivity). cbn [andb]. destruct (q ++ "'" :: "," :: s) eqn:E; [destruct q; discriminate E|reflexivity].
Qed.
Lemma quote_comma_none q : ~ In "'" q -> quote_comma (q ++ ["'"; ")"; ";"]) = None.
Proof.
  induction q as [|c q IH]; intros N; [reflexivity|]. cbn [app]. cbn [quote_comma]. rewrite IH by (intros H; apply N; right; exact H).
  rewrite (proj2 (chr_neq c "'")) by (intros ->; apply N; left; reflexivity). cbn [andb]. destruct (q ++ ["'"; ")"; ";"]); reflexivity.
Qed.
Lemma strip_statement c s : is_space c = false -> strip is_space ((c :: s) ++ [")"; ";"]) = (c :: s) ++ [")"; ";"].
Proof.
  intros C. replace ((c :: s) ++ [")"; ";"]) with (c :: (s ++ [")"]) ++ [";"]) by (cbn [app]; rewrite <- app_assoc; reflexivity). apply strip_id; [exact C|reflexivity].
Qed.

(** with a label *)
Lemma labelled id b1 b2 name label args : blanks b1 -> blanks b2 -> keyword name -> ~ In "'" label -> args_ok args ->
  read_statement (statement id b1 b2 name ("'" :: label ++ "'" :: "," :: commas (map arg_text args)))
  = Ok (Function id name (Arg ("'" :: label ++ ["'"]) :: map arg_read args) (concat (map arg_refs args) ++ concat (map list_refs args))).
Proof.
  intros B1 B2 K L A. destruct (keyword_notin name K) as [K1 K2]. unfold read_statement, statement.
  set (rest := ("'" :: label ++ "'" :: "," :: commas (map arg_text args)) ++ [")"; ";"]).
  destruct (head_parts id b1 b2 name rest B1 B2 K1 K2) as (f & na & -> & E1 & E2 & E3 & E4). cbn [bind]. rewrite E1. cbn [bind]. rewrite E2. cbn [bind]. rewrite E3, E4.
  destruct K as [K0 _]. destruct name as [|n0 name]; [congruence|].
  assert (S1 : separate_entity_name_and_arguments rest = Ok ("'" :: label ++ ["'"], ([","] ++ commas (map arg_text args)) ++ [")"; ";"])).
  { unfold separate_entity_name_and_arguments, rest. rewrite strip_statement by reflexivity. cbn [app]. change (Ascii.eqb "'" "'") with true. cbv iota.
    rewrite <- app_assoc. cbn [app]. rewrite quote_comma_app by exact L. reflexivity. }
  rewrite S1. cbn [bind fst snd]. destruct A as (A1 & A2 & A3). rewrite conn_args by (try exact A2; right; reflexivity). cbn [bind].
  rewrite split_args; [|right; reflexivity|right; reflexivity|split; [exact A1|split; assumption]]. cbn [name_list app mapM_]. 
  assert (R0 : read_argument ("'" :: label ++ ["'"]) = Ok (Arg ("'" :: label ++ ["'"]), [])).
  { unfold read_argument. assert (E : starts_ref ("'" :: label ++ ["'"]) = false) by (destruct label; reflexivity). rewrite E. reflexivity. }
  rewrite R0. cbn [bind]. rewrite read_args by exact A2. cbn [bind map fst snd concat app]. rewrite !map_map. reflexivity.
Qed.
(** without a label *)
Lemma unlabelled id b1 b2 name args : blanks b1 -> blanks b2 -> keyword name -> args_ok args -> unquoted_first args ->
  read_statement (statement id b1 b2 name (commas (map arg_text args)))
  = Ok (Function id name (map arg_read args) (concat (map arg_refs args) ++ concat (map list_refs args))).
Proof.
  intros B1 B2 K A U. destruct (keyword_notin name K) as [K1 K2]. unfold read_statement, statement.
  set (rest := commas (map arg_text args) ++ [")"; ";"]).
  destruct (head_parts id b1 b2 name rest B1 B2 K1 K2) as (f & na & -> & E1 & E2 & E3 & E4). cbn [bind]. rewrite E1. cbn [bind]. rewrite E2. cbn [bind]. rewrite E3, E4.
  destruct K as [K0 _]. destruct name as [|n0 name]; [congruence|].
  assert (A' := A). destruct A as (A1 & A2 & A3).
  assert (S1 : separate_entity_name_and_arguments rest = Ok ([], ([] ++ commas (map arg_text args)) ++ [")"; ";"])).
  { unfold separate_entity_name_and_arguments. destruct args as [|a args]; [congruence|].
    assert (X : exists c w, commas (map arg_text (a :: args)) = c :: w /\ is_space c = false /\ (c = "'" -> is_quoted a)).
    { assert (Y : exists c w, arg_text a = c :: w /\ is_space c = false /\ (c = "'" -> is_quoted a)).
      { inversion A2 as [|? ? O _]; subst. destruct a as [i|q|l|l|l]; cbn [arg_text arg_ok is_quoted] in *.
        - destruct i as [t|i]; cbn [item_text item_ok] in *; [|exists "#", (dec i); repeat split; discriminate]. destruct O as [N F]. destruct t as [|c t]; [congruence|].
          inversion F as [|? ? (P1 & P2 & P3 & P4 & P5 & P6 & P7) _]; subst. exists c, t. split; [reflexivity|split; [exact P7|intros ->; congruence]].
        - exists "'", (q ++ ["'"]). repeat split.
        - exists "(", (commas l ++ [")"]). repeat split; discriminate.
        - exists "(", (commas (map (fun i => "#" :: dec i) l) ++ [")"]). repeat split; discriminate.
        - exists "(", (commas (map (fun r => paren (commas (map item_text r))) l) ++ [")"]). repeat split; discriminate. }
      destruct Y as (c & w & Y1 & Y2 & Y3). cbn [map]. destruct args as [|b args].
      - exists c, w. split; [exact Y1|split; assumption].
      - cbn [map]. rewrite commas_cons, Y1. exists c, (w ++ "," :: commas (arg_text b :: map arg_text args)). split; [reflexivity|split; assumption]. }
    destruct X as (c & w & X1 & X2 & X3). unfold rest. rewrite X1, strip_statement by exact X2. cbn [app]. destruct (Ascii.eqb c "'") eqn:C; [|reflexivity].
    apply chr_eq in C. specialize (X3 C). destruct args as [|b args]; [|exfalso; apply U, X3].
    destruct a as [i|q|l|l|l]; cbn [is_quoted] in X3; try tauto. unfold commas in X1. cbn [map join arg_text] in X1. subst c. assert (W : w = q ++ ["'"]) by congruence. subst w.
    rewrite <- app_assoc. cbn [app]. rewrite quote_comma_none; [reflexivity|]. inversion A2 as [|? ? O _]; subst. cbn [arg_ok] in O. apply plain_notin; [exact O|apply np_quote]. }
  rewrite S1. cbn [bind fst snd]. rewrite conn_args by (try exact A2; left; reflexivity). cbn [bind].
  rewrite split_args; [|left; reflexivity|right; reflexivity|exact A']. cbn [name_list app]. rewrite read_args by exact A2. cbn [bind map fst snd concat app]. rewrite !map_map. reflexivity.
Qed.
