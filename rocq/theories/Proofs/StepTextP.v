From Verif.Model Require Import StepText.
From Verif.Spec Require Import StepTextSpec.
From Coq Require DecimalZ DecimalPos.
From Coq Require Import Lia DecimalString.
Open Scope char_scope.
Lemma chr_eq a b : (a =? b)%char = true <-> a = b. Proof. apply Ascii.eqb_eq. Qed.
Lemma chr_neq a b : (a =? b)%char = false <-> a <> b. Proof. apply Ascii.eqb_neq. Qed.

Lemma despace_quote q s : ~ In "'" q -> despace true (q ++ s) = (q ++ despace true s)%list.
Proof.
  induction q as [|c q IH]; intros H; [reflexivity|]. cbn in H |- *.
  destruct (c =? "'")%char eqn:E; [apply chr_eq in E; subst; intuition|]. cbn. f_equal. apply IH. intuition.
Qed.
Lemma quotable_no_quote q : quotable q -> ~ In "'" q.
Proof.
  induction 1; cbn; [intuition| |].
  - intros [E|E]; [congruence|contradiction].
  - intros [E|E]; [discriminate|]. apply in_app_or in E. destruct E as [E|[E|E]]; [contradiction|discriminate|contradiction].
Qed.
Lemma despace_inner a : inner a -> forall s, despace false (a ++ s) = (despace false a ++ despace false s)%list.
Proof.
  induction 1 as [|c a N1 N2 N3 H IH|q a Hq H IH|a b Ha IHa Hb IHb]; intros s; cbn [app].
  - reflexivity.
  - cbn. destruct (c =? "'")%char eqn:E; [apply chr_eq in E; contradiction|]. cbn. destruct (c =? " ")%char; cbn; rewrite IH; reflexivity.
  - cbn. pose proof (quotable_no_quote q Hq) as N. f_equal. rewrite <- app_assoc. rewrite !(despace_quote q) by assumption. cbn. rewrite IH. rewrite <- ?app_assoc. reflexivity.
  - cbn. f_equal. rewrite <- app_assoc. rewrite !IHa. cbn. rewrite IHb. rewrite <- ?app_assoc. reflexivity.
Qed.
Lemma arg_inner a : argument_text a -> inner a.
Proof. induction 1; [apply inner_nil|apply inner_char; assumption|apply inner_quote; assumption|apply inner_paren; assumption]. Qed.

Lemma scan_quoted q : quotable q -> forall d cur acc s, (1 <= d)%Z -> scan (q ++ s) d true cur acc = scan s d true (cur ++ q) acc.
Proof.
  induction 1 as [|c q N1 N2 N3 H IH|a b Ha IHa Hb IHb]; intros d cur acc s Hd.
  - rewrite app_nil_r. reflexivity.
  - cbn [app scan]. rewrite (proj2 (chr_neq _ _) N1), (proj2 (chr_neq _ _) N2), (proj2 (chr_neq _ _) N3). cbn [negb andb].
    rewrite Bool.orb_true_r. rewrite IH by assumption. rewrite <- app_assoc. reflexivity.
  - replace (("(" :: a ++ ")" :: b) ++ s)%list with ("(" :: a ++ ")" :: b ++ s)%list by (cbn; rewrite <- app_assoc; reflexivity).
    cbn [scan]. change ("(" =? "(")%char with true. change ("(" =? "'")%char with false. change ("(" =? ")")%char with false. cbn [negb andb]. rewrite Bool.orb_true_r.
    rewrite IHa by lia. cbn [scan]. change (")" =? "(")%char with false. change (")" =? "'")%char with false. change (")" =? ")")%char with true. cbn [negb andb]. rewrite Bool.orb_true_r.
    replace (d + 1 - 1)%Z with d by ring. destruct (d =? 0)%Z eqn:E; [apply Z.eqb_eq in E; lia|]. rewrite IHb by assumption. f_equal. rewrite <- !app_assoc. cbn. rewrite <- ?app_assoc. reflexivity.
Qed.
Lemma scan_open d cur acc s : (1 <= d)%Z -> scan ("(" :: s) d false cur acc = scan s (d + 1) false (cur ++ ["("]) acc.
Proof.
  intros Hd. cbn [scan]. change ("(" =? "(")%char with true. change ("(" =? "'")%char with false. change ("(" =? ")")%char with false. change ("(" =? " ")%char with false. cbn [negb andb].
  destruct (1 <? d + 1)%Z eqn:E; [reflexivity|apply Z.ltb_ge in E; lia].
Qed.
Lemma scan_close d cur acc s : (1 < d)%Z -> scan (")" :: s) d false cur acc = scan s (d - 1) false (cur ++ [")"]) acc.
Proof.
  intros Hd. cbn [scan]. change (")" =? "(")%char with false. change (")" =? "'")%char with false. change (")" =? ")")%char with true. change (")" =? " ")%char with false. cbn [negb andb].
  destruct (1 <? d)%Z eqn:E; [|apply Z.ltb_ge in E; lia]. cbn [orb]. destruct (d - 1 =? 0)%Z eqn:F; [apply Z.eqb_eq in F; lia|reflexivity].
Qed.
Lemma scan_quote_in d cur acc s : scan ("'" :: s) d false cur acc = scan s d true (cur ++ ["'"]) acc.
Proof. cbn [scan]. change ("'" =? "(")%char with false. change ("'" =? "'")%char with true. change ("'" =? ")")%char with false. cbn [negb andb]. rewrite Bool.orb_true_r. reflexivity. Qed.
Lemma scan_quote_out d cur acc s : scan ("'" :: s) d true cur acc = scan s d false (cur ++ ["'"]) acc.
Proof.
  cbn [scan]. change ("'" =? "(")%char with false. change ("'" =? "'")%char with true. change ("'" =? ")")%char with false. change ("'" =? " ")%char with false. change ("'" =? ",")%char with false. cbn [negb andb].
  destruct ((1 <? d)%Z || false)%bool; reflexivity.
Qed.
Lemma scan_string q d cur acc s : quotable q -> (1 <= d)%Z -> scan ("'" :: q ++ "'" :: s) d false cur acc = scan s d false (cur ++ "'" :: q ++ ["'"])%list acc.
Proof. intros Hq Hd. rewrite scan_quote_in, scan_quoted by assumption. rewrite scan_quote_out. f_equal. rewrite <- !app_assoc. reflexivity. Qed.
Lemma despace_string q s : quotable q -> despace false ("'" :: q ++ "'" :: s) = ("'" :: q ++ "'" :: despace false s)%list.
Proof. intros Hq. cbn. f_equal. rewrite despace_quote by (apply quotable_no_quote; assumption). reflexivity. Qed.
Lemma despace_paren a s : inner a -> despace false ("(" :: a ++ ")" :: s) = ("(" :: despace false a ++ ")" :: despace false s)%list.
Proof. intros Ha. cbn. f_equal. rewrite despace_inner by assumption. reflexivity. Qed.
Lemma scan_inner a : inner a -> forall d cur acc s, (1 < d)%Z -> scan (a ++ s) d false cur acc = scan s d false (cur ++ despace false a) acc.
Proof.
  induction 1 as [|c a N1 N2 N3 H IH|q a Hq H IH|a b Ha IHa Hb IHb]; intros d cur acc s Hd.
  - rewrite app_nil_r. reflexivity.
  - cbn [app scan despace]. rewrite (proj2 (chr_neq _ _) N1), (proj2 (chr_neq _ _) N2), (proj2 (chr_neq _ _) N3). cbn [negb andb].
    destruct (c =? " ")%char eqn:E; [apply IH; assumption|]. assert ((1 <? d)%Z = true) as -> by (apply Z.ltb_lt; assumption). cbn [orb].
    rewrite IH by assumption. rewrite <- app_assoc. reflexivity.
  - replace (("'" :: q ++ "'" :: a) ++ s)%list with ("'" :: q ++ "'" :: (a ++ s))%list by (cbn; rewrite <- app_assoc; reflexivity).
    rewrite scan_string by (auto; lia). rewrite IH by assumption. rewrite despace_string by assumption. f_equal. cbn. rewrite <- ?app_assoc. cbn. rewrite <- ?app_assoc. reflexivity.
  - replace (("(" :: a ++ ")" :: b) ++ s)%list with ("(" :: a ++ ")" :: (b ++ s))%list by (cbn; rewrite <- app_assoc; reflexivity).
    rewrite scan_open by lia. rewrite IHa by lia. rewrite scan_close by lia. replace (d + 1 - 1)%Z with d by ring. rewrite IHb by assumption. rewrite despace_paren by assumption.
    f_equal. cbn. rewrite <- ?app_assoc. cbn. rewrite <- ?app_assoc. reflexivity.
Qed.
Lemma scan_arg a : argument_text a -> forall cur acc s, scan (a ++ s) 1 false cur acc = scan s 1 false (cur ++ despace false a) acc.
Proof.
  induction 1 as [|c a N1 N2 N3 N4 H IH|q a Hq H IH|a b Ha Hb IHb]; intros cur acc s.
  - rewrite app_nil_r. reflexivity.
  - cbn [app scan despace]. rewrite (proj2 (chr_neq _ _) N1), (proj2 (chr_neq _ _) N2), (proj2 (chr_neq _ _) N3), (proj2 (chr_neq _ _) N4). cbn [negb andb].
    destruct (c =? " ")%char eqn:E; [apply IH|]. change ((1 <? 1)%Z || false)%bool with false. cbv iota. rewrite IH. rewrite <- app_assoc. reflexivity.
  - replace (("'" :: q ++ "'" :: a) ++ s)%list with ("'" :: q ++ "'" :: (a ++ s))%list by (cbn; rewrite <- app_assoc; reflexivity).
    rewrite scan_string by (auto; lia). rewrite IH. rewrite despace_string by assumption. f_equal. cbn. rewrite <- ?app_assoc. cbn. rewrite <- ?app_assoc. reflexivity.
  - replace (("(" :: a ++ ")" :: b) ++ s)%list with ("(" :: a ++ ")" :: (b ++ s))%list by (cbn; rewrite <- app_assoc; reflexivity).
    rewrite scan_open by lia. rewrite scan_inner by (auto; lia). rewrite scan_close by lia. replace (1 + 1 - 1)%Z with 1%Z by ring. rewrite IHb. rewrite despace_paren by assumption.
    f_equal. cbn. rewrite <- ?app_assoc. cbn. rewrite <- ?app_assoc. reflexivity.
Qed.
Lemma join_cons c a b l : join c (a :: b :: l) = (a ++ c ++ join c (b :: l))%list. Proof. reflexivity. Qed.
Lemma scan_args args : args <> [] -> Forall argument_text args -> forall cur acc s,
  scan (join (tx ",") args ++ ")" :: s) 1 false cur acc =
    (acc ++ match map (despace false) args with a :: r => (cur ++ a) :: r | [] => [] end)%list.
Proof.
  induction args as [|a args IH]; [congruence|]. intros _ H cur acc s. inversion H as [|x l Ha Hargs]; subst.
  destruct args as [|b args].
  - cbn [join map]. rewrite scan_arg by assumption. cbn [scan]. change (")" =? "(")%char with false. change (")" =? "'")%char with false. change (")" =? ")")%char with true. change (")" =? " ")%char with false. cbn [negb andb].
    change ((1 <? 1)%Z || false)%bool with false. change (")" =? ",")%char with false. cbv iota. cbn [negb]. change (1 - 1 =? 0)%Z with true. cbv iota. rewrite removelast_last. reflexivity.
  - rewrite join_cons. rewrite <- !app_assoc. rewrite scan_arg by assumption. set (j := join (tx ",") (b :: args)) in *.
    change (tx "," ++ j ++ ")" :: s)%list with ("," :: (j ++ ")" :: s))%list. cbn [scan].
    change ("," =? "(")%char with false. change ("," =? "'")%char with false. change ("," =? ")")%char with false. change ("," =? " ")%char with false. change ("," =? ",")%char with true. cbn [negb andb].
    change ((1 <? 1)%Z || false)%bool with false. cbv iota. rewrite IH by (congruence || assumption). cbn [map app]. rewrite <- app_assoc. reflexivity.
Qed.
Lemma scan_spaces s d acc : only_spaces s -> scan (lstrip is_space s) d false [] acc = scan s d false [] acc.
Proof.
  induction s as [|c s IH]; intros H; [reflexivity|]. inversion H as [|x l Hc Hs]; subst. cbn [lstrip]. destruct (is_space c) eqn:E; [|reflexivity].
  rewrite IH by assumption. rewrite (Hc eq_refl). reflexivity.
Qed.
Lemma lstrip_close s : lstrip is_space (rev (lstrip is_space (s ++ [")"]))) = rev (lstrip is_space (s ++ [")"])).
Proof.
  assert (X : exists t, lstrip is_space (s ++ [")"]) = (t ++ [")"])%list).
  { induction s as [|c s [t IH]]; [exists []; reflexivity|]. cbn [app lstrip]. destruct (is_space c); [exists t; assumption|exists (c :: s); reflexivity]. }
  destruct X as [t ->]. rewrite rev_app_distr. reflexivity.
Qed.
Lemma scan_stop s r : scan (s ++ r) 1 false [] [] = scan (s ++ r) 1 false [] []. Proof. reflexivity. Qed.

(** C51 *)
Lemma split_special_spec args : args <> [] -> Forall argument_text args -> only_spaces (join (tx ",") args) ->
  step_split_arguments_special (join (tx ",") args ++ tx ")") = map (despace false) args.
Proof.
  intros Hne Ha Hs. unfold step_split_arguments_special, strip. change (tx ")") with [")"]. set (t := join (tx ",") args) in *.
  rewrite lstrip_close, rev_involutive.
  assert (X : exists u, lstrip is_space (t ++ [")"]) = (u ++ [")"])%list /\ lstrip is_space t = u).
  { clearbody t. clear - t. induction t as [|c t (u & IH & E)]; [exists []; split; reflexivity|]. cbn [app lstrip]. destruct (is_space c); [exists u; split; assumption|exists (c :: t); split; reflexivity]. }
  destruct X as (u & E & Eu). rewrite E. rewrite last_last. change (")" =? ")")%char with true. cbn [negb]. rewrite Bool.andb_false_r.
  assert (KEY : forall r, scan (u ++ ")" :: r) 1 false [] [] = map (despace false) args).
  { intros r. assert (scan (u ++ ")" :: r) 1 false [] [] = scan (t ++ ")" :: r) 1 false [] []) as ->.
    - subst u. clear - Hs. clearbody t. induction t as [|c t IH]; [reflexivity|]. inversion Hs as [|x l Hc Ht]; subst. cbn [lstrip]. destruct (is_space c) eqn:E; [|reflexivity].
      rewrite IH by assumption. rewrite (Hc eq_refl). reflexivity.
    - unfold t. rewrite scan_args by assumption. destruct args; [congruence|reflexivity]. }
  destruct (u ++ [")"])%list as [|c w] eqn:Ew; [destruct u; discriminate|]. rewrite <- Ew. destruct (c =? "(")%char.
  - rewrite <- app_assoc. apply (KEY [")"]).
  - apply (KEY []).
Qed.
(** A closing parenthesis inside a quoted string ends the scan. *)
Lemma split_special_paren_in_string : exists args, args <> [] /\ Forall (fun a => ~ In "," a) args /\
  step_split_arguments_special (join (tx ",") args ++ tx ")") <> map (despace false) args.
Proof.
  exists [tx "'a)'"; tx "#1"]. split; [congruence|]. split; [|vm_compute; congruence].
  repeat constructor; cbn; intuition discriminate.
Qed.
(** Without the final parenthesis, a last argument between parentheses is lost. *)
Lemma split_special_no_final : step_split_arguments_special (tx "#1,(#2)") = [tx "#1"].
Proof. reflexivity. Qed.

(** C52 *)
Lemma split_on_no c s : ~ In c s -> split_on c s = [s].
Proof. induction s as [|a s IH]; intros H; [reflexivity|]. cbn. destruct (a =? c)%char eqn:E; [apply chr_eq in E; subst; exfalso; apply H; left; reflexivity|]. rewrite IH; [reflexivity|intros X; apply H; right; assumption]. Qed.
Lemma split_on_app c a s : ~ In c a -> split_on c (a ++ c :: s) = a :: split_on c s.
Proof.
  induction a as [|x a IH]; intros H; cbn.
  - rewrite Ascii.eqb_refl. reflexivity.
  - destruct (x =? c)%char eqn:E; [apply chr_eq in E; subst; exfalso; apply H; left; reflexivity|]. rewrite IH; [reflexivity|intros X; apply H; right; assumption].
Qed.
Lemma split_join l : l <> [] -> Forall (fun a => ~ In "," a) l -> split_on "," (join (tx ",") l) = l.
Proof.
  induction l as [|a l IH]; [congruence|]. intros _ H. inversion H; subst. destruct l as [|b l].
  - cbn. apply split_on_no. assumption.
  - rewrite join_cons. change (tx "," ++ join (tx ",") (b :: l))%list with ("," :: join (tx ",") (b :: l))%list. rewrite split_on_app by assumption. rewrite IH by (congruence || assumption). reflexivity.
Qed.
Lemma join_app l a s : join (tx ",") (l ++ [a ++ s])%list = (join (tx ",") (l ++ [a]) ++ s)%list.
Proof.
  induction l as [|x l IH]; [reflexivity|]. cbn [app]. destruct (l ++ [a ++ s])%list eqn:E; [destruct l; discriminate|].
  destruct (l ++ [a])%list as [|t w1] eqn:F; [destruct l; discriminate|]. rewrite !join_cons. transitivity (x ++ tx "," ++ (join (tx ",") (t :: w1) ++ s))%list; [do 2 f_equal; exact IH|]. rewrite <- !app_assoc. reflexivity.
Qed.
Lemma cut_last_app l a : cut_last (l ++ [a])%list = (l ++ [removelast a])%list.
Proof. induction l as [|x l IH]; [reflexivity|]. cbn [app cut_last]. rewrite IH. destruct (l ++ [a])%list eqn:E; [destruct l; discriminate|reflexivity]. Qed.
Lemma set_to_list_spec l : l <> [] -> Forall (fun a => ~ In "," a) l -> forall o c, o <> "," -> c <> "," ->
  set_to_list (o :: join (tx ",") l ++ [c]) = l.
Proof.
  intros Hne H o c Ho Hc. unfold set_to_list.
  assert (split_on "," (o :: join (tx ",") l ++ [c]) = split_on "," (o :: join (tx ",") (removelast l ++ [last l [] ++ [c]]))) as ->.
  { rewrite join_app. rewrite <- app_removelast_last by assumption. reflexivity. }
  assert (S : split_on "," (o :: join (tx ",") (removelast l ++ [last l [] ++ [c]])) = match (removelast l ++ [last l [] ++ [c]])%list with a :: r => (o :: a) :: r | [] => [] end).
  { cbn [split_on]. rewrite (proj2 (chr_neq _ _) Ho). rewrite split_join.
    - destruct (removelast l ++ [last l [] ++ [c]])%list eqn:E; [destruct (removelast l); discriminate|reflexivity].
    - destruct (removelast l); discriminate.
    - rewrite (app_removelast_last [] Hne) in H. apply Forall_app in H. destruct H as [H1 H2]. apply Forall_app. split; [assumption|]. constructor; [|constructor]. inversion H2; subst. intros X. apply in_app_or in X. destruct X as [X|[X|[]]]; [contradiction|congruence]. }
  rewrite S. rewrite (app_removelast_last [] Hne) at 3. destruct (removelast l) as [|a r].
  - cbn [app cut_first tl cut_last]. rewrite removelast_last. reflexivity.
  - cbn [app cut_first tl]. change (a :: r ++ [last l [] ++ [c]])%list with ((a :: r) ++ [last l [] ++ [c]])%list. rewrite cut_last_app. rewrite removelast_last. reflexivity.
Qed.
Lemma uint_digits d : Forall (fun c => c <> "," /\ c <> "#" /\ c <> "(" /\ c <> ")" /\ c <> "'" /\ c <> " ") (tx (NilEmpty.string_of_uint d)).
Proof. induction d; cbn; constructor; try assumption; repeat split; discriminate. Qed.
Lemma nz_digits d : Forall (fun c => c <> "," /\ c <> "#" /\ c <> "(" /\ c <> ")" /\ c <> "'" /\ c <> " ") (tx (NilZero.string_of_uint d)).
Proof. destruct d; try apply (uint_digits (Decimal.D0 Decimal.Nil)); match goal with |- Forall _ (tx (NilZero.string_of_uint ?x)) => exact (uint_digits x) end. Qed.
Lemma dec_chars i : Forall (fun c => c <> "," /\ c <> "#" /\ c <> "(" /\ c <> ")" /\ c <> "'" /\ c <> " ") (dec i).
Proof. unfold dec. destruct (Z.to_int i) as [d|d]; cbn; [apply nz_digits|]. constructor; [repeat split; discriminate|apply nz_digits]. Qed.
Lemma int_dec i : int_of (dec i) = Ok i.
Proof.
  unfold int_of, dec, str_of, tx. rewrite string_of_list_ascii_of_string. rewrite NilZero.isi.
  - rewrite DecimalZ.of_to. reflexivity.
  - destruct i; cbn; try discriminate. intros E. injection E as E. revert E. apply DecimalPos.Unsigned.to_uint_nonnil.
  - destruct i; cbn; try discriminate. intros E. injection E as E. revert E. apply DecimalPos.Unsigned.to_uint_nonnil.
Qed.
Lemma ids_round_trip ids : ids <> [] -> set_to_list (tx "(" ++ step_ids_to_str ids ++ tx ")") = map (fun i => "#" :: dec i) ids.
Proof.
  intros H. unfold step_ids_to_str. change (tx "(" ++ join (tx ",") (map (fun i => "#" :: dec i) ids) ++ tx ")")%list with ("(" :: join (tx ",") (map (fun i => "#" :: dec i) ids) ++ [")"])%list.
  apply set_to_list_spec; try discriminate.
  - destruct ids; [congruence|discriminate].
  - apply Forall_forall. intros a Ha. apply in_map_iff in Ha. destruct Ha as (i & <- & _). intros [X|X]; [discriminate|]. destruct (proj1 (Forall_forall _ _) (dec_chars i) _ X) as [Y _]. apply Y. reflexivity.
Qed.
Lemma ids_parse_back i : int_of (tl ("#" :: dec i)) = Ok i.
Proof. apply int_dec. Qed.
Lemma ids_empty : set_to_list (tx "(" ++ step_ids_to_str [] ++ tx ")") = [[]].
Proof. reflexivity. Qed.
