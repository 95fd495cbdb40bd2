(** C134: the keywords read from the text of version.py. *)
From Coq Require Import Ascii String.
From Coq Require Import ZArith NArith List Bool Lia.
From Verif Require Import Base Version PropsVersion VersionFile.
Import ListNotations.
Open Scope list_scope.

(** the three variables and the keywords they stand for *)
Definition variables : list (string * (keywords -> option str)) :=
  [("git_refnames", k_refnames); ("git_full", k_full); ("git_date", k_date)]%string.

(** the line assigns the string to the variable: blanks, name, equals sign, the string in double quotes, anything without
    double quotes *)
Definition assigns (name : string) (v line : str) : Prop :=
  exists indent blanks tail, forallb is_space indent = true /\ forallb is_space blanks = true /\ ~ In dquote tail /\
    line = indent ++ s_ name ++ s_ " =" ++ blanks ++ dquote :: v ++ dquote :: tail.
(** the line begins with an assignment to the variable *)
Definition mentions (name : string) (line : str) : Prop := exists indent rest, forallb is_space indent = true /\ line = indent ++ s_ name ++ s_ " =" ++ rest.
(** a text made of lines *)
Definition text (eol : str) (lines : list str) : str := concat (map (fun l => l ++ eol) lines).
Definition line_end (eol : str) : Prop := eol = [newline] \/ eol = [cr] \/ eol = [cr; newline].
Definition plain_line (l : str) : Prop := ~ In newline l /\ ~ In cr l.

(** ** lines *)
Lemma eqb_char_refl c : eqb_char c c = true.
Proof. destruct (eqb_char_spec c c); congruence. Qed.
Lemma eqb_char_neq a b : a <> b -> eqb_char a b = false.
Proof. destruct (eqb_char_spec a b); congruence. Qed.

Lemma universal_plain l s : plain_line l -> universal (l ++ s) = l ++ universal s.
Proof.
  intros [_ H]. induction l as [|c l IH]; [reflexivity|]. cbn [app universal]. rewrite eqb_char_neq by (intros ->; apply H; now left).
  f_equal. apply IH. intros I. apply H. now right.
Qed.
Lemma lines_plain l s : plain_line l -> lines_of (l ++ newline :: s) = (l ++ [newline]) :: lines_of s.
Proof.
  intros [H _]. induction l as [|c l IH]; cbn [app lines_of].
  - now rewrite eqb_char_refl.
  - rewrite eqb_char_neq by (intros ->; apply H; now left). rewrite IH by (intros I; apply H; now right). reflexivity.
Qed.
Lemma text_lines eol lines : line_end eol -> Forall plain_line lines -> lines_of (universal (text eol lines)) = map (fun l => l ++ [newline]) lines.
Proof.
  intros He F. induction F as [|l lines P F IH]; [reflexivity|]. unfold text. cbn [map concat]. fold (text eol lines). rewrite <- app_assoc, universal_plain by exact P.
  assert (E : universal (eol ++ text eol lines) = newline :: universal (text eol lines)).
  { destruct He as [->|[->| ->]].
    - cbn [app universal]. rewrite eqb_char_neq by discriminate. reflexivity.
    - cbn [app universal]. rewrite eqb_char_refl. destruct (text [cr] lines) as [|d s] eqn:T; [reflexivity|]. rewrite eqb_char_neq; [reflexivity|]. intros ->.
      destruct F as [|l' lines' [P1 _] F]; [discriminate|]. unfold text in T. cbn [map concat] in T. destruct l' as [|c l']; [discriminate|]. injection T as -> _. apply P1. now left.
    - cbn [app universal]. rewrite !eqb_char_refl. reflexivity. }
  rewrite E, lines_plain by exact P. now rewrite IH.
Qed.

(** ** one line *)
Lemma no_newline_plain l : ~ In newline l -> no_newline (l ++ [newline]) = l.
Proof.
  induction l as [|c l IH]; intros H; cbn [app no_newline]; [now rewrite eqb_char_refl|]. rewrite eqb_char_neq by (intros ->; apply H; now left).
  f_equal. apply IH. intros I. apply H. now right.
Qed.
Lemma quoted_skip u s : ~ In "="%char u -> quoted (u ++ s) = quoted s.
Proof.
  induction u as [|c u IH]; intros H; [reflexivity|]. cbn [app quoted]. rewrite eqb_char_neq by (intros ->; apply H; now left). apply IH. intros I. apply H. now right.
Qed.
Lemma lstrip_end p w c s : forallb p w = true -> p c = false -> lstrip p (w ++ c :: s) = c :: s.
Proof. intros W P. rewrite lstrip_app by exact W. cbn [lstrip]. now rewrite P. Qed.
Lemma lstrip_parts p s : exists u, forallb p u = true /\ s = u ++ lstrip p s.
Proof.
  induction s as [|c s (u & U & E)]; [exists []; split; reflexivity|]. cbn [lstrip]. destruct (p c) eqn:P; [|exists []; split; reflexivity].
  exists (c :: u). split; [cbn; now rewrite P|]. cbn [app]. now f_equal.
Qed.
Lemma strip_parts s : exists u w, forallb is_space u = true /\ s = u ++ strip s ++ w.
Proof.
  destruct (lstrip_parts is_space s) as (u & U & E). destruct (lstrip_parts is_space (rev (lstrip is_space s))) as (w & _ & E').
  exists u, (rev w). split; [exact U|]. unfold strip, strip_of, rstrip. rewrite <- rev_app_distr, <- E', rev_involutive. exact E.
Qed.
Lemma lstrip_stop p a b : b <> [] -> p (hd dash b) = false -> lstrip p (a ++ b) = lstrip p a ++ b.
Proof.
  intros N H. induction a as [|c a IH]; cbn [app lstrip]; [destruct b; [congruence|cbn in H; cbn; now rewrite H]|]. destruct (p c); [exact IH|reflexivity].
Qed.
Lemma strip_startswith p s : p <> [] -> trimmed p ->
  (startswith p (strip s) = true <-> exists indent rest, forallb is_space indent = true /\ s = indent ++ p ++ rest).
Proof.
  intros N [H1 H2]. split.
  - intros H. apply startswith_spec in H as [t E]. destruct (strip_parts s) as (u & w & U & Es). rewrite E in Es. exists u, (t ++ w). split; [exact U|]. now rewrite Es, <- app_assoc.
  - intros (u & rest & U & ->). apply startswith_spec. unfold strip, strip_of, rstrip. rewrite lstrip_app by exact U.
    rewrite (lstrip_trimmed is_space (p ++ rest)) by (destruct p; [congruence|exact H1]). rewrite rev_app_distr, lstrip_stop.
    + rewrite rev_app_distr, rev_involutive. eauto.
    + intros E. apply N. rewrite <- (rev_involutive p), E. reflexivity.
    + rewrite hd_rev. exact H2.
Qed.

Lemma equals_not_space c : is_space c = true -> c <> "="%char.
Proof. intros H ->. discriminate. Qed.
Lemma blanks_no_equals w : forallb is_space w = true -> ~ In "="%char w.
Proof. rewrite forallb_forall. intros H I. apply H in I. discriminate. Qed.

Definition var (name : string) : Prop := In name ["git_refnames"; "git_full"; "git_date"]%string.
Lemma var_no_equals name : var name -> ~ In "="%char (s_ name ++ [" "%char]).
Proof. intros [<-|[<-|[<-|[]]]]; cbn; intuition discriminate. Qed.
Lemma var_trimmed name : var name -> s_ name ++ s_ " =" <> [] /\ trimmed (s_ name ++ s_ " =").
Proof. intros [<-|[<-|[<-|[]]]]; repeat split; discriminate. Qed.

(** the string of an assignment is found *)
Lemma quoted_assigns name v line : var name -> ~ In newline line -> assigns name v line -> quoted (line ++ [newline]) = Some v.
Proof.
  intros V L (indent & blanks & tail & I & B & T & ->).
  replace ((indent ++ s_ name ++ s_ " =" ++ blanks ++ dquote :: v ++ dquote :: tail) ++ [newline])
    with ((indent ++ s_ name ++ [" "%char]) ++ "="%char :: blanks ++ dquote :: (v ++ dquote :: tail) ++ [newline])
    by (change (s_ " =") with [" "%char; "="%char]; rewrite <- !app_assoc; cbn [app]; rewrite <- !app_assoc; reflexivity).
  rewrite quoted_skip.
  - cbn [quoted]. rewrite eqb_char_refl, lstrip_end by (auto; reflexivity). rewrite eqb_char_refl, no_newline_plain.
    + replace (split_last dquote (v ++ dquote :: tail)) with (Some (v, tail)); [reflexivity|]. symmetry. apply split_last_spec. auto.
    + intros H. apply L. do 4 (apply in_or_app; right). now right.
  - intros H. apply in_app_or in H as [H|H]; [exact (blanks_no_equals _ I H)|exact (var_no_equals _ V H)].
Qed.

Lemma found_line name line : var name -> startswith (s_ name ++ s_ " =") (strip line) = true <-> mentions name line.
Proof.
  intros V. destruct (var_trimmed _ V) as [N T]. rewrite (strip_startswith _ _ N T). unfold mentions. split; intros (u & r & U & ->); exists u, r; split; auto; now rewrite <- !app_assoc.
Qed.
Lemma mentions_newline name l : var name -> mentions name (l ++ [newline]) <-> mentions name l.
Proof.
  intros V. split.
  - intros (u & r & U & E). destruct (exists_last (l := r)) as (r' & c & ->).
    { intros ->. rewrite app_nil_r in E. change (s_ " =") with ([" "%char] ++ ["="%char]) in E. rewrite !app_assoc in E. apply app_inj_tail in E as [_ E]. discriminate. }
    rewrite !app_assoc in E. apply app_inj_tail in E as [E _]. exists u, r'. split; [exact U|]. now rewrite !app_assoc.
  - intros (u & r & U & ->). exists u, (r ++ [newline]). split; [exact U|]. now rewrite <- !app_assoc.
Qed.

Lemma scan_field name field k line : In (name, field) variables ->
  field (scan_line k line) = if startswith (s_ name ++ s_ " =") (strip line) then match quoted line with Some v => Some v | None => field k end else field k.
Proof. intros [E|[E|[E|[]]]]; injection E as <- <-; reflexivity. Qed.
Lemma variables_var name field : In (name, field) variables -> var name.
Proof. intros [E|[E|[E|[]]]]; injection E as <- _; unfold var; cbn; auto. Qed.

Lemma scan_none name field ls : In (name, field) variables -> Forall (fun l => ~ mentions name l) ls -> forall k, field (fold_left scan_line ls k) = field k.
Proof.
  intros I F. induction F as [|l ls H F IH]; intros k; [reflexivity|]. cbn [fold_left]. rewrite IH, (scan_field _ _ _ _ I).
  destruct (startswith _ _) eqn:E; [|reflexivity]. exfalso. apply H. apply found_line; [eapply variables_var; eauto|exact E].
Qed.

(** the last assignment to a variable is its keyword, for all three kinds of line ends *)
Theorem C134_found : forall eol pre line post name field v, line_end eol -> Forall plain_line (pre ++ line :: post) -> In (name, field) variables ->
  assigns name v line -> Forall (fun l => ~ mentions name l) post ->
  field (git_get_keywords (Some (text eol (pre ++ line :: post)))) = Some v.
Proof.
  intros eol pre line post name field v He F I A P. unfold git_get_keywords. rewrite text_lines by assumption. rewrite map_app, fold_left_app. cbn [map fold_left].
  pose proof (variables_var _ _ I) as V. rewrite (scan_none _ _ _ I).
  - rewrite (scan_field _ _ _ _ I). apply Forall_app in F as [_ F]. pose proof (Forall_inv F) as [L _].
    rewrite (quoted_assigns _ v _ V L A). replace (startswith (s_ name ++ s_ " =") (strip (line ++ [newline]))) with true; [reflexivity|]. symmetry. apply found_line; [exact V|].
    apply mentions_newline; [exact V|]. destruct A as (u & b & t & U & _ & _ & ->). exists u. eexists. split; [exact U|reflexivity].
  - rewrite Forall_map. eapply Forall_impl; [|exact P]. cbv beta. intros l H M. apply H. apply (mentions_newline name l V). exact M.
Qed.
Print Assumptions C134_found.

(** a variable that is not assigned has no keyword *)
Theorem C134_absent : forall eol lines name field, line_end eol -> Forall plain_line lines -> In (name, field) variables ->
  Forall (fun l => ~ mentions name l) lines -> field (git_get_keywords (Some (text eol lines))) = None.
Proof.
  intros eol lines name field He F I P. unfold git_get_keywords. rewrite text_lines by assumption. rewrite (scan_none _ _ _ I).
  - destruct I as [E|[E|[E|[]]]]; injection E as _ <-; reflexivity.
  - rewrite Forall_map. eapply Forall_impl; [|exact P]. cbv beta. intros l H M. apply H. apply (mentions_newline name l (variables_var _ _ I)). exact M.
Qed.
Print Assumptions C134_absent.

(** a file that cannot be read: no keywords, and therefore no version from keywords *)
Theorem C134_unreadable : forall prefix, git_versions_from_keywords (git_get_keywords None) prefix = NotThisMethod.
Proof. reflexivity. Qed.
Print Assumptions C134_unreadable.

(** ** version.py itself *)
Definition keyword_line (name : string) (v : str) : str := s_ "    " ++ s_ name ++ s_ " =" ++ s_ " " ++ dquote :: v ++ [dquote].
(** Lines 29-31 as git-archive writes them, anything before and after that does not start with an assignment to the variables: reading
    the text gives the keywords that get_keywords() returns. *)
Theorem C134_imported : forall eol before after refnames full date, line_end eol ->
  Forall plain_line (before ++ after) -> plain_line refnames -> plain_line full -> plain_line date ->
  Forall (fun l => forall name, var name -> ~ mentions name l) (before ++ after) ->
  git_get_keywords (Some (text eol (before ++ [keyword_line "git_refnames" refnames; keyword_line "git_full" full; keyword_line "git_date" date] ++ after)))
  = {| k_refnames := Some refnames; k_full := Some full; k_date := Some date |}.
Proof.
  intros eol before after r f d He F Pr Pf Pd M. apply Forall_app in F as [F1 F2]. apply Forall_app in M as [_ M].
  assert (KP : forall name v, var name -> plain_line v -> plain_line (keyword_line name v)).
  { intros name v V [N C]. unfold keyword_line. split; intros H; repeat (apply in_app_or in H as [H|H]);
      try (cbn in H; intuition discriminate); try (destruct V as [<-|[<-|[<-|[]]]]; cbn in H; intuition discriminate);
      (destruct H as [H|H]; [discriminate|apply in_app_or in H as [H|[H|[]]]; [contradiction|discriminate]]). }
  assert (KA : forall name v, assigns name v (keyword_line name v)).
  { intros name v. exists (s_ "    "), (s_ " "), []. repeat split. intros []. }
  assert (KM : forall name name' v, var name -> var name' -> name <> name' -> ~ mentions name (keyword_line name' v)).
  { intros name name' v V V' N H. apply found_line in H; [|exact V]. revert H. unfold keyword_line.
    assert (T : exists s', strip (s_ "    " ++ s_ name' ++ s_ " =" ++ s_ " " ++ dquote :: v ++ [dquote]) = s_ name' ++ s_ " =" ++ s_ " " ++ dquote :: v ++ [dquote] ++ s' /\ s' = []).
    { exists []. split; [|reflexivity]. pose proof (strip_trimmed (s_ "    ") (s_ name' ++ s_ " =" ++ s_ " " ++ dquote :: v ++ [dquote]) [] eq_refl eq_refl) as K.
      rewrite app_nil_r in K. rewrite K; [now rewrite app_nil_r|]. split; [destruct V' as [<-|[<-|[<-|[]]]]; reflexivity|].
      replace (s_ name' ++ s_ " =" ++ s_ " " ++ dquote :: v ++ [dquote]) with ((s_ name' ++ s_ " =" ++ s_ " " ++ dquote :: v) ++ [dquote]) by (rewrite <- !app_assoc; reflexivity).
      rewrite last_last. reflexivity. }
    destruct T as (s' & -> & ->). destruct V as [<-|[<-|[<-|[]]]], V' as [<-|[<-|[<-|[]]]]; try congruence; cbn; discriminate. }
  assert (VA : var "git_refnames") by (unfold var; cbn; auto). assert (VB : var "git_full") by (unfold var; cbn; auto). assert (VC : var "git_date") by (unfold var; cbn; auto).
  assert (PL : Forall plain_line (before ++ [keyword_line "git_refnames" r; keyword_line "git_full" f; keyword_line "git_date" d] ++ after)).
  { apply Forall_app. split; [exact F1|]. apply Forall_app. split; [|exact F2]. repeat constructor; try (apply KP; assumption); apply KP; assumption. }
  assert (MA : forall name, var name -> Forall (fun l => ~ mentions name l) after) by (intros name V; eapply Forall_impl; [|exact M]; cbv beta; auto).
  set (T := text eol _). destruct (git_get_keywords (Some T)) as [a b c] eqn:E.
  assert (Ea : a = Some r).
  { change a with (k_refnames {| k_refnames := a; k_full := b; k_date := c |}). rewrite <- E. unfold T. cbn [app] in *.
    apply (C134_found eol before (keyword_line "git_refnames" r) (keyword_line "git_full" f :: keyword_line "git_date" d :: after) "git_refnames" k_refnames r He PL); auto; [cbn; auto|].
    repeat constructor; [apply KM|apply KM|]; auto; discriminate. }
  assert (Eb : b = Some f).
  { change b with (k_full {| k_refnames := a; k_full := b; k_date := c |}). rewrite <- E. unfold T. replace (before ++ [keyword_line "git_refnames" r; keyword_line "git_full" f; keyword_line "git_date" d] ++ after)
      with ((before ++ [keyword_line "git_refnames" r]) ++ keyword_line "git_full" f :: keyword_line "git_date" d :: after) in * by (rewrite <- app_assoc; reflexivity).
    apply (C134_found eol _ (keyword_line "git_full" f) (keyword_line "git_date" d :: after) "git_full" k_full f He PL); auto; [cbn; auto|].
    constructor; [apply KM|]; auto; discriminate. }
  assert (Ec : c = Some d).
  { change c with (k_date {| k_refnames := a; k_full := b; k_date := c |}). rewrite <- E. unfold T. replace (before ++ [keyword_line "git_refnames" r; keyword_line "git_full" f; keyword_line "git_date" d] ++ after)
      with ((before ++ [keyword_line "git_refnames" r; keyword_line "git_full" f]) ++ keyword_line "git_date" d :: after) in * by (rewrite <- app_assoc; reflexivity).
    apply (C134_found eol _ (keyword_line "git_date" d) after "git_date" k_date d He PL); auto. cbn; auto. }
  now rewrite Ea, Eb, Ec.
Qed.
Print Assumptions C134_imported.

(** the checkout: lines 22-33 of version.py *)
Example C134_case : git_get_keywords (Some (text [newline] (map s_ ["def get_keywords():"; "    # get_keywords()."]%string ++
    [keyword_line "git_refnames" (s_ "$Format:%d$"); keyword_line "git_full" (s_ "$Format:%H$"); keyword_line "git_date" (s_ "$Format:%ci$")] ++ map s_ ["    return keywords"]%string))) = checkout_keywords.
Proof. vm_compute. reflexivity. Qed.
