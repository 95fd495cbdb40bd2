(** C114 - C119: the version of the package, computed when it is imported. *)
From Coq Require Decimal DecimalN.
From Coq Require Import Ascii String.
From Coq Require Import ZArith NArith List Bool Lia Permutation.
From Verif Require Import Base Version.
Import ListNotations.
Open Scope list_scope.

(** ** Specification *)
Definition dash : ascii := "-"%char.
Definition digit (c : ascii) : Prop := (48 <= N_of_ascii c <= 57)%N.
Definition hexadecimal (c : ascii) : Prop := digit c \/ (97 <= N_of_ascii c <= 102)%N.
(** the decimal notation of a number: digits without superfluous zeros *)
Fixpoint digits_value (s : str) : N :=
  match s with [] => 0 | c :: s' => (N_of_ascii c - 48) * 10 ^ N.of_nat (length s') + digits_value s' end%N.
Definition decimal (n : N) (s : str) : Prop :=
  s <> [] /\ Forall digit s /\ digits_value s = n /\ (hd dash s = "0"%char -> s = ["0"%char]).
(** TAG-NUM-gHEX *)
Definition described (tag num hex : str) : str := tag ++ [dash] ++ num ++ s_ "-g" ++ hex.
(** what the version of a checkout should be *)
Definition version_string (tag num hex : str) (n : N) (dirty : bool) : str :=
  if ((n =? 0)%N && negb dirty)%bool then tag
  else tag ++ (if in_dec ascii_dec "+"%char tag then s_ "." else s_ "+") ++ num ++ s_ ".g" ++ hex ++ (if dirty then s_ ".dirty" else []).
Definition plusses (s : str) : nat := count_occ ascii_dec s "+"%char.
(** the order of strings used by sorted() *)
Inductive before : str -> str -> Prop :=
| before_nil c s : before [] (c :: s)
| before_char c d s t : (N_of_ascii c < N_of_ascii d)%N -> before (c :: s) (d :: t)
| before_cons c s t : before s t -> before (c :: s) (c :: t).

(** ** Strings *)
Lemma eqb_char_spec a b : reflect (a = b) (eqb_char a b).
Proof. unfold eqb_char. destruct (ascii_dec a b); constructor; assumption. Qed.
Lemma eqb_str_spec a b : reflect (a = b) (eqb_str a b).
Proof. unfold eqb_str. destruct (list_eq_dec ascii_dec a b); constructor; assumption. Qed.
Lemma startswith_spec p s : startswith p s = true <-> exists t, s = p ++ t.
Proof.
  revert s. induction p as [|a p IH]; intros s; cbn.
  - split; [intros _; exists s; reflexivity|reflexivity].
  - destruct s as [|b s]; [split; [discriminate|intros [t H]; discriminate]|].
    rewrite andb_true_iff, IH. split.
    + intros [H [t ->]]. destruct (eqb_char_spec a b); [subst|discriminate]. exists t. reflexivity.
    + intros [t H]. injection H as -> ->. split; [destruct (eqb_char_spec a a); congruence|exists t; reflexivity].
Qed.
Lemma skipn_length_app {A} (a b : list A) : skipn (length a) (a ++ b) = b.
Proof. rewrite skipn_app, skipn_all, Nat.sub_diag. reflexivity. Qed.
Lemma endswith_spec p s : endswith p s = true <-> exists t, s = t ++ p.
Proof.
  unfold endswith. rewrite startswith_spec. split; intros [t H].
  - exists (rev t). rewrite <- (rev_involutive s), H, rev_app_distr, rev_involutive. reflexivity.
  - exists (rev t). rewrite H, rev_app_distr. reflexivity.
Qed.
Lemma contains_char_spec c s : contains_char c s = true <-> In c s.
Proof.
  unfold contains_char. rewrite existsb_exists. split.
  - intros (x & Hx & E). destruct (eqb_char_spec c x); [subst; exact Hx|discriminate].
  - intros H. exists c. split; [exact H|]. destruct (eqb_char_spec c c); congruence.
Qed.
Lemma contains_false c s : contains_char c s = false <-> ~ In c s.
Proof. rewrite <- contains_char_spec. destruct (contains_char c s); split; congruence. Qed.
Lemma split_last_spec c s a b : split_last c s = Some (a, b) <-> s = a ++ c :: b /\ ~ In c b.
Proof.
  revert a b. induction s as [|d s IH]; intros a b; cbn.
  - split; [discriminate|]. intros [H _]. destruct a; discriminate.
  - assert (N : split_last c s = None <-> ~ In c s).
    { clear - IH. split.
      - intros H Hin. apply in_split in Hin as (l1 & l2 & E).
        assert (exists l1 l2, s = l1 ++ c :: l2 /\ ~ In c l2) as (m1 & m2 & E' & Hn).
        { clear IH H. revert l1 l2 E. induction s as [|x s IHs]; intros l1 l2 E; [destruct l1; discriminate|].
          destruct (in_dec ascii_dec c s) as [Hi|Hi].
          - apply in_split in Hi as (k1 & k2 & E2). destruct (IHs k1 k2 E2) as (m1 & m2 & -> & Hn). exists (x :: m1), m2. split; [reflexivity|exact Hn].
          - destruct l1 as [|y l1]; cbn in E; injection E as -> ->; [exists [], l2; split; [reflexivity|exact Hi]|].
            exfalso. apply Hi, in_or_app. right. left. reflexivity. }
        pose proof (proj2 (IH m1 m2) (conj E' Hn)). congruence.
      - intros H. destruct (split_last c s) as [[x y]|] eqn:E; [|reflexivity]. exfalso. apply H.
        destruct (proj1 (IH x y) eq_refl) as [-> _]. apply in_or_app. right. left. reflexivity. }
    destruct (split_last c s) as [[x y]|] eqn:E.
    + destruct (proj1 (IH x y) eq_refl) as [Es Hn]. split.
      * intros H. injection H as <- <-. split; [rewrite Es; reflexivity|exact Hn].
      * intros [H Hb]. destruct a as [|z a]; cbn in H; injection H as -> Hs.
        -- exfalso. apply Hb. rewrite <- Hs, Es. apply in_or_app. right. left. reflexivity.
        -- assert (Q : Some (x, y) = Some (a, b)) by (apply IH; split; [exact Hs|exact Hb]). injection Q as -> ->. reflexivity.
    + assert (Nc : ~ In c s) by (apply N; reflexivity). destruct (eqb_char_spec c d) as [->|Hd].
      * split.
        -- intros H. injection H as <- <-. split; [reflexivity|exact Nc].
        -- intros [H Hb]. destruct a as [|z a]; cbn in H; [injection H as ->; reflexivity|injection H as _ Hs].
           exfalso. apply Nc. rewrite Hs. apply in_or_app. right. left. reflexivity.
      * split; [discriminate|]. intros [H Hb]. destruct a as [|z a]; cbn in H; injection H as Hz Hs; [congruence|].
        exfalso. apply Nc. rewrite Hs. apply in_or_app. right. left. reflexivity.
Qed.
Lemma split_last_none c s : ~ In c s -> split_last c s = None.
Proof.
  intros H. destruct (split_last c s) as [[a b]|] eqn:E; [|reflexivity]. apply split_last_spec in E as [-> _].
  exfalso. apply H, in_or_app. right. left. reflexivity.
Qed.
(** the first occurrence of a character *)
Lemma first_unique {A} (c : A) a b a' b' : ~ In c a -> ~ In c a' -> a ++ c :: b = a' ++ c :: b' -> a = a' /\ b = b'.
Proof.
  revert a'. induction a as [|x a IH]; intros [|y a'] Ha Ha' H; cbn in H.
  - injection H as ->. split; reflexivity.
  - injection H as -> _. exfalso. apply Ha'. left. reflexivity.
  - injection H as <- _. exfalso. apply Ha. left. reflexivity.
  - injection H as <- H. destruct (IH a') as [-> ->]; [intros Q; apply Ha; right; exact Q|intros Q; apply Ha'; right; exact Q|exact H|].
    split; reflexivity.
Qed.
(** a string that neither starts nor ends with white space *)
Definition trimmed (s : str) : Prop := is_space (hd dash s) = false /\ is_space (last s dash) = false.
Lemma lstrip_trimmed p s : p (hd dash s) = false -> lstrip p s = s.
Proof. destruct s as [|c s]; cbn; [reflexivity|]. intros ->. reflexivity. Qed.
Lemma hd_rev s : hd dash (rev s) = last s dash.
Proof. induction s as [|c s IH] using rev_ind; [reflexivity|]. rewrite rev_app_distr, last_last. reflexivity. Qed.
Lemma lstrip_app p w s : forallb p w = true -> lstrip p (w ++ s) = lstrip p s.
Proof. induction w as [|c w IH]; cbn; [reflexivity|]. intros H. apply andb_true_iff in H as [-> H]. exact (IH H). Qed.
Lemma strip_of_trimmed p w s w' : forallb p w = true -> forallb p w' = true -> p (hd dash s) = false -> p (last s dash) = false -> strip_of p (w ++ s ++ w') = s.
Proof.
  intros Hw Hw' H1 H2. unfold strip_of, rstrip. rewrite lstrip_app by exact Hw.
  destruct s as [|c s].
  - cbn [app]. rewrite <- (app_nil_r w') at 1. rewrite lstrip_app by exact Hw'. reflexivity.
  - rewrite (lstrip_trimmed p ((c :: s) ++ w')) by exact H1. rewrite rev_app_distr, lstrip_app.
    + rewrite lstrip_trimmed by (rewrite hd_rev; exact H2). apply rev_involutive.
    + clear - Hw'. rewrite forallb_forall in *. intros x Hx. apply Hw', in_rev. exact Hx.
Qed.
Lemma strip_trimmed w s w' : forallb is_space w = true -> forallb is_space w' = true -> trimmed s -> strip (w ++ s ++ w') = s.
Proof. intros Hw Hw' [H1 H2]. apply strip_of_trimmed; assumption. Qed.
Lemma strip_id s : trimmed s -> strip s = s.
Proof. intros H. pose proof (strip_trimmed [] s [] eq_refl eq_refl H) as E. cbn [app] in E. rewrite app_nil_r in E. exact E. Qed.

Lemma lstrip_hd p s : p dash = false -> p (hd dash (lstrip p s)) = false.
Proof. intros Hd. induction s as [|c s IH]; [exact Hd|]. cbn. destruct (p c) eqn:E; [exact IH|exact E]. Qed.
Lemma lstrip_suffix p s : exists u, s = u ++ lstrip p s.
Proof. induction s as [|c s [u IH]]; [exists []; reflexivity|]. cbn. destruct (p c); [exists (c :: u); cbn; f_equal; exact IH|exists []; reflexivity]. Qed.
Lemma byte_space c : is_space c = false -> is_byte_space c = false.
Proof.
  unfold is_space, is_byte_space, code. rewrite !orb_false_iff, !andb_false_iff, !N.leb_gt, !N.eqb_neq. intros [[[H1 H2] H3] H4].
  split; [exact H1|]. lia.
Qed.
Lemma strip_bytes_trimmed w s w' : forallb is_byte_space w = true -> forallb is_byte_space w' = true -> trimmed s -> strip_bytes (w ++ s ++ w') = s.
Proof. intros Hw Hw' [H1 H2]. apply strip_of_trimmed; [assumption..| |]; apply byte_space; assumption. Qed.
Lemma lstrip_keeps p s c : In c s -> p c = false -> In c (lstrip p s).
Proof. intros H Hp. induction s as [|d s IH]; [destruct H|]. cbn. destruct (p d) eqn:E; [|exact H]. destruct H as [->|H]; [congruence|exact (IH H)]. Qed.
Lemma strip_of_keeps p s c : In c s -> p c = false -> In c (strip_of p s).
Proof.
  intros H Hp. unfold strip_of, rstrip. apply -> (@in_rev ascii). apply lstrip_keeps; [|exact Hp]. apply -> (@in_rev ascii). apply lstrip_keeps; assumption.
Qed.

(** ** Digits *)
Lemma digit_spec c : is_digit c = true <-> digit c.
Proof. unfold is_digit, digit, code. rewrite andb_true_iff, !N.leb_le. reflexivity. Qed.
Lemma hex_spec c : is_hex c = true <-> hexadecimal c.
Proof. unfold is_hex, hexadecimal. rewrite orb_true_iff, digit_spec, andb_true_iff, !N.leb_le. reflexivity. Qed.
Lemma forallb_Forall {A} (f : A -> bool) (P : A -> Prop) l : (forall x, f x = true <-> P x) -> forallb f l = true <-> Forall P l.
Proof.
  intros H. rewrite forallb_forall, Forall_forall. split; intros G x Hx; apply H, G, Hx.
Qed.
Lemma not_digit c s : Forall digit s -> ~ digit c -> ~ In c s.
Proof. intros H Hc Hi. apply Hc. rewrite Forall_forall in H. exact (H c Hi). Qed.
Lemma not_hex c s : Forall hexadecimal s -> ~ hexadecimal c -> ~ In c s.
Proof. intros H Hc Hi. apply Hc. rewrite Forall_forall in H. exact (H c Hi). Qed.
Lemma dash_digit : ~ digit dash. Proof. unfold digit, dash. cbn. lia. Qed.
Lemma dot_digit : ~ digit "."%char. Proof. unfold digit. cbn. lia. Qed.
Lemma dash_hex : ~ hexadecimal dash. Proof. unfold hexadecimal, digit, dash. cbn. lia. Qed.
Lemma dot_hex : ~ hexadecimal "."%char. Proof. unfold hexadecimal, digit. cbn. lia. Qed.
Lemma plus_digit : ~ digit "+"%char. Proof. unfold digit. cbn. lia. Qed.
Lemma plus_hex : ~ hexadecimal "+"%char. Proof. unfold hexadecimal, digit. cbn. lia. Qed.
Lemma newline_hex : ~ hexadecimal newline. Proof. unfold hexadecimal, digit. cbn. lia. Qed.

Lemma value_spec s : value s = digits_value s.
Proof.
  unfold value. assert (G : forall a, fold_left (fun n c => (10 * n + (code c - 48))%N) s a = (a * 10 ^ N.of_nat (length s) + digits_value s)%N).
  { induction s as [|c s IH]; intros a.
    - cbn [fold_left digits_value length N.of_nat]. change (10 ^ N.of_nat 0)%N with 1%N. lia.
    - cbn [fold_left digits_value]. rewrite IH. cbn [length]. rewrite Nat2N.inj_succ, N.pow_succ_r'. unfold code.
      set (p := (10 ^ N.of_nat (length s))%N). lia. }
  rewrite G. lia.
Qed.
Lemma uint_digits d : Forall digit (str_of_uint d).
Proof. induction d; cbn; constructor; try assumption; unfold digit; cbn; lia. Qed.
Lemma of_uint_value d : N.of_uint d = value (str_of_uint d).
Proof.
  assert (G : forall d p, fold_left (fun n c => (10 * n + (code c - 48))%N) (str_of_uint d) (Npos p) = Npos (Pos.of_uint_acc d p)).
  { clear. induction d; intros p; cbn [str_of_uint fold_left Pos.of_uint_acc]; [reflexivity|..]; rewrite <- IHd; f_equal;
      match goal with |- context [(code ?c - 48)%N] => let v := eval vm_compute in (code c - 48)%N in change (code c - 48)%N with v end; lia. }
  unfold N.of_uint, value. induction d; cbn [str_of_uint fold_left Pos.of_uint]; [reflexivity|exact IHd|..]; symmetry; apply (G d).
Qed.
Lemma fmt_value n : value (fmt_N n) = n.
Proof. unfold fmt_N. rewrite <- of_uint_value. apply DecimalN.Unsigned.of_to. Qed.
Lemma uint_of_digits s : Forall digit s -> exists d, str_of_uint d = s.
Proof.
  induction 1 as [|c s Hc _ [d <-]]; [exists Decimal.Nil; reflexivity|].
  assert (E : exists k, (k < 10)%nat /\ c = ascii_of_nat (48 + k)).
  { exists (N.to_nat (N_of_ascii c - 48)). unfold digit in Hc. split; [lia|]. rewrite <- (ascii_N_embedding c) at 1. unfold ascii_of_nat. f_equal. lia. }
  destruct E as (k & Hk & ->).
  destruct k as [|[|[|[|[|[|[|[|[|[|k]]]]]]]]]]; [exists (Decimal.D0 d)|exists (Decimal.D1 d)|exists (Decimal.D2 d)|exists (Decimal.D3 d)|exists (Decimal.D4 d)|exists (Decimal.D5 d)
    |exists (Decimal.D6 d)|exists (Decimal.D7 d)|exists (Decimal.D8 d)|exists (Decimal.D9 d)|lia]; reflexivity.
Qed.
(** fmt_N writes the decimal notation, and there is only one *)
Lemma fmt_unique n s : decimal n s -> s = fmt_N n.
Proof.
  intros (Hn & Hd & Hv & H0). destruct (uint_of_digits s Hd) as [d <-].
  unfold fmt_N. rewrite <- Hv, <- value_spec, <- of_uint_value, DecimalN.Unsigned.to_of. f_equal.
  destruct d; cbn in *; try reflexivity; [congruence|].
  specialize (H0 eq_refl). injection H0 as H0. destruct d; [reflexivity|discriminate..].
Qed.
Lemma fmt_decimal n : decimal n (fmt_N n).
Proof.
  unfold decimal. rewrite <- value_spec, fmt_value. unfold fmt_N.
  assert (E : N.to_uint n = Decimal.unorm (N.to_uint n)) by (rewrite <- DecimalN.Unsigned.to_of, DecimalN.Unsigned.of_to; reflexivity).
  split; [|split; [apply uint_digits|split; [reflexivity|]]].
  - intros H. destruct (N.to_uint n); [cbn in E; discriminate|discriminate..].
  - intros H. destruct (N.to_uint n) as [|u|u|u|u|u|u|u|u|u|u]; cbn in H; try discriminate.
    rewrite DecimalFacts.unorm_D0 in E. unfold Decimal.unorm in E.
    assert (NZ : forall v w, Decimal.nzhead v <> Decimal.D0 w) by (clear; intros v; induction v; cbn; intros; try discriminate; auto).
    destruct (Decimal.nzhead u) eqn:Eu; try discriminate.
    + injection E as ->. reflexivity.
    + exfalso. exact (NZ u _ Eu).
Qed.

(** ** C114: the regular expression *)
(** git describe's output is taken apart in the only possible way, tags with hyphens included *)
Theorem C114_parse : forall s tag num hex,
  parse_describe s = Some (tag, num, hex) <->
  (s = described tag num hex \/ s = described tag num hex ++ [newline]) /\
  tag <> [] /\ ~ In newline tag /\ num <> [] /\ Forall digit num /\ hex <> [] /\ Forall hexadecimal hex.
Proof.
  assert (LT : forall l : str, (0 <? length l)%nat = true <-> l <> []) by (intros [|c l]; cbn; split; congruence).
  assert (D : forall tag num hex, described tag num hex = (tag ++ dash :: num) ++ dash :: "g"%char :: hex) by (intros; unfold described; cbn; rewrite <- app_assoc; reflexivity).
  intros s tag num hex. split.
  - unfold parse_describe. destruct (split_last "-" s) as [[front gh]|] eqn:E1; [|discriminate]. apply split_last_spec in E1 as [Es N1].
    destruct gh as [|g hx]; [discriminate|].
    set (h := match rev hx with c :: r => if eqb_char c newline then rev r else hx | [] => hx end).
    assert (Hh : hx = h \/ hx = h ++ [newline]).
    { unfold h. destruct (rev hx) as [|c r] eqn:Er; [left; reflexivity|]. destruct (eqb_char_spec c newline) as [->|]; [|left; reflexivity].
      right. rewrite <- (rev_involutive hx), Er. reflexivity. }
    clearbody h. destruct (eqb_char_spec g "g") as [->|]; [|discriminate]. cbn [andb].
    destruct ((0 <? length h)%nat) eqn:Eh; [|discriminate]. cbn [andb]. destruct (forallb is_hex h) eqn:Fh; [|discriminate].
    destruct (split_last "-" front) as [[t n]|] eqn:E2; [|discriminate]. apply split_last_spec in E2 as [-> N2].
    destruct ((0 <? length t)%nat) eqn:Et; [|discriminate]. destruct (contains_char newline t) eqn:Ct; [discriminate|].
    destruct ((0 <? length n)%nat) eqn:En; [|discriminate]. destruct (forallb is_digit n) eqn:Fn; [|discriminate]. cbn [andb negb].
    intros Q. injection Q as -> -> ->. split; [|repeat split].
    + rewrite D. change "-"%char with dash in Es. destruct Hh as [-> | ->]; [left; exact Es|right]. rewrite Es, <- !app_assoc. reflexivity.
    + apply LT, Et.
    + apply contains_false, Ct.
    + apply LT, En.
    + apply (forallb_Forall is_digit digit); [exact digit_spec|exact Fn].
    + apply LT, Eh.
    + apply (forallb_Forall is_hex hexadecimal); [exact hex_spec|exact Fh].
  - intros (Hs & Ht & Nt & Hn & Fn & Hh & Fh). unfold parse_describe.
    assert (Nh : ~ In dash hex) by exact (not_hex dash hex Fh dash_hex). assert (Nn : ~ In dash num) by exact (not_digit dash num Fn dash_digit).
    assert (E : exists hx, split_last "-" s = Some (tag ++ dash :: num, "g"%char :: hx) /\ (match rev hx with c :: r => if eqb_char c newline then rev r else hx | [] => hx end) = hex).
    { destruct Hs as [-> | ->].
      - exists hex. split.
        + apply split_last_spec. split; [apply D|]. intros [Q|Q]; [discriminate|exact (Nh Q)].
        + destruct (rev hex) as [|c r] eqn:Er; [reflexivity|]. destruct (eqb_char_spec c newline) as [->|]; [|reflexivity].
          exfalso. apply (not_hex newline hex Fh newline_hex). apply in_rev. rewrite Er. left. reflexivity.
      - exists (hex ++ [newline]). split.
        + apply split_last_spec. split; [rewrite D, <- !app_assoc; reflexivity|].
          intros [Q|Q]; [discriminate|]. apply in_app_iff in Q as [Q|[Q|[]]]; [exact (Nh Q)|discriminate].
        + rewrite rev_app_distr. cbn [rev app]. destruct (eqb_char_spec newline newline); [apply rev_involutive|congruence]. }
    destruct E as (hx & -> & ->). rewrite (proj2 (LT hex) Hh), (proj2 (forallb_Forall is_hex hexadecimal hex hex_spec) Fh).
    replace (split_last "-" (tag ++ dash :: num)) with (Some (tag, num)) by (symmetry; apply split_last_spec; split; [reflexivity|exact Nn]).
    rewrite (proj2 (LT tag) Ht), (proj2 (contains_false newline tag) Nt), (proj2 (LT num) Hn), (proj2 (forallb_Forall is_digit digit num digit_spec) Fn). reflexivity.
Qed.

Example C114_case : parse_describe (s_ "v1.2-rc-3-17-g0a9f") = Some (s_ "v1.2-rc-3", s_ "17", s_ "0a9f").
Proof. reflexivity. Qed.

(** ** C115: the version of a checkout *)
(** the repository in directory root: every command succeeds, the commit has a date *)
Definition answers (git : list str -> started) (args : list string) (answer : str) : Prop :=
  exists w w', forallb is_byte_space w = true /\ forallb is_byte_space w' = true /\ git (map s_ args) = Finished (w ++ answer ++ w') 0.
Definition describe_command : list string := ["describe"; "--tags"; "--dirty"; "--always"; "--long"; "--match"; "v[[:digit:]]*"]%string.
Record repository (git : list str -> started) (description revision : str) : Prop := {
  has_gitdir : exists out, git (map s_ ["rev-parse"; "--git-dir"]%string) = Finished out 0;
  has_description : trimmed description /\ answers git describe_command description;
  has_revision : trimmed revision /\ answers git ["rev-parse"; "HEAD"]%string revision;
  has_branch : exists b, trimmed b /\ answers git ["rev-parse"; "--abbrev-ref"; "HEAD"]%string b /\
     (b = s_ "HEAD" -> exists out, git (map s_ ["branch"; "--contains"]%string) = Finished out 0);
  has_date : exists d, d <> [] /\ trimmed d /\ answers git ["show"; "-s"; "--format=%ci"; "HEAD"]%string d }.

Lemma runner_answers git args answer : trimmed answer -> answers git args answer -> runner git (map s_ args) = Done (Some answer, Some 0%Z).
Proof. intros T (w & w' & Hw & Hw' & E). unfold runner, run_command. rewrite E. cbn [Z.eqb]. rewrite strip_bytes_trimmed by assumption. reflexivity. Qed.

Lemma splitlines_some s : s <> [] -> splitlines s <> [].
Proof.
  destruct s as [|c s]; [congruence|]. intros _. cbn [splitlines].
  destruct (is_eol c); [destruct s as [|d s]; [discriminate|destruct ((code c =? 13)%N && (code d =? 10)%N); discriminate]|].
  destruct s as [|d s]; [discriminate|]. destruct (is_eol d); destruct (splitlines (d :: s)); discriminate.
Qed.
Lemma iso_date_done d : d <> [] -> exists d', iso_date d = Done d'.
Proof.
  intros H. unfold iso_date. destruct (rev (splitlines d)) as [|l r] eqn:E; [|eexists; reflexivity].
  exfalso. apply (splitlines_some d H). rewrite <- (rev_involutive (splitlines d)), E. reflexivity.
Qed.
Lemma repository_branch git D R : repository git D R -> exists b, find_branch git = Done b.
Proof.
  intros G. destruct (has_branch _ _ _ G) as (b & T & A & C). unfold find_branch.
  change [s_ "rev-parse"; s_ "--abbrev-ref"; s_ "HEAD"] with (map s_ ["rev-parse"; "--abbrev-ref"; "HEAD"]%string).
  rewrite (runner_answers git ["rev-parse"; "--abbrev-ref"; "HEAD"]%string b T A). cbn [obind rc_ok Z.eqb negb]. rewrite strip_id by exact T.
  destruct (eqb_str_spec b (s_ "HEAD")) as [E|]; [|eexists; reflexivity].
  destruct (C E) as [out Eo]. change [s_ "branch"; s_ "--contains"] with (map s_ ["branch"; "--contains"]%string). unfold runner. rewrite Eo. cbn [run_command Z.eqb obind rc_ok negb].
  match goal with |- context [existsb ?f ?l] => destruct (existsb f l) end; [eexists; reflexivity|].
  match goal with |- context [match ?l with [] => _ | _ => _ end] => destruct l end; eexists; reflexivity.
Qed.
Lemma repository_date git D R : repository git D R -> exists d, commit_date git = Done d.
Proof.
  intros G. destruct (has_date _ _ _ G) as (d & H & T & A). unfold commit_date.
  change [s_ "show"; s_ "-s"; s_ "--format=%ci"; s_ "HEAD"] with (map s_ ["show"; "-s"; "--format=%ci"; "HEAD"]%string).
  rewrite (runner_answers git _ d T A). cbn [obind]. rewrite strip_id by exact T. apply iso_date_done, H.
Qed.
Lemma hex_not_space c : hexadecimal c -> is_space c = false.
Proof.
  unfold hexadecimal, digit, is_space, code. intros H.
  repeat (apply orb_false_iff; split); try apply andb_false_iff; rewrite ?N.leb_gt, ?N.eqb_neq; lia.
Qed.

Theorem C115_version : forall file git tag num hex dirty n revision,
  repository (git (dirname (dirname file))) (described (s_ "v" ++ tag) num hex ++ (if dirty : bool then s_ "-dirty" else [])) revision ->
  tag <> [] -> ~ In newline tag -> num <> [] -> Forall digit num -> digits_value num = n -> hex <> [] -> Forall hexadecimal hex ->
  exists i num', get_versions checkout_keywords (Some file) git = Done i /\ decimal n num' /\
    version i = version_string tag num' hex n dirty /\ full_revisionid i = Some revision /\ i_dirty i = Some dirty /\ i_error i = None.
Proof.
  intros file git tag num hex dirty n revision G Ht Nt Hn Fn Hv Hh Fh. set (g := git (dirname (dirname file))) in *.
  destruct (repository_branch _ _ _ G) as [b Eb]. destruct (repository_date _ _ _ G) as [d Ed].
  destruct (has_gitdir _ _ _ G) as [o Eo]. destruct (has_description _ _ _ G) as [T1 A1]. destruct (has_revision _ _ _ G) as [T2 A2].
  set (D := described (s_ "v" ++ tag) num hex) in *.
  assert (End : endswith (s_ "-dirty") (D ++ (if dirty then s_ "-dirty" else [])) = dirty).
  { destruct dirty; [apply endswith_spec; exists D; reflexivity|]. rewrite app_nil_r.
    destruct (endswith (s_ "-dirty") D) eqn:E; [|reflexivity]. apply endswith_spec in E as [t E]. exfalso.
    assert (Q : In "y"%char hex).
    { assert (ED : D = ((s_ "v" ++ tag) ++ [dash] ++ num ++ s_ "-g") ++ hex) by (unfold D, described; rewrite <- !app_assoc; reflexivity).
      apply (f_equal (fun s => hd dash (rev s))) in E. rewrite ED, (rev_app_distr t), rev_app_distr in E. apply in_rev.
      destruct (rev hex) as [|c r] eqn:Er; [|cbn in E; rewrite E; left; reflexivity].
      exfalso. apply Hh. rewrite <- (rev_involutive hex), Er. reflexivity. }
    apply (not_hex "y"%char hex Fh); [|exact Q]. unfold hexadecimal, digit. cbn. lia. }
  set (p := {| p_long := revision; p_short := hex; p_branch := b; p_dirty := dirty; p_tag := Some tag; p_distance := n; p_date := d |}).
  assert (P : git_pieces_from_vcs g (s_ "v") = Done (Parsed p)).
  { unfold git_pieces_from_vcs. change [s_ "rev-parse"; s_ "--git-dir"] with (map s_ ["rev-parse"; "--git-dir"]%string). unfold runner at 1. rewrite Eo. cbn [run_command Z.eqb obind rc_ok negb].
    change (describe_args (s_ "v")) with (map s_ describe_command). rewrite (runner_answers g describe_command _ T1 A1). cbn [obind].
    change [s_ "rev-parse"; s_ "HEAD"] with (map s_ ["rev-parse"; "HEAD"]%string). rewrite (runner_answers g _ _ T2 A2). cbn [obind].
    rewrite Eb. cbn [obind]. rewrite !(strip_id _ T1), !(strip_id _ T2), End.
    replace (if dirty then firstn (length (D ++ (if dirty then s_ "-dirty" else [])) - 6) (D ++ (if dirty then s_ "-dirty" else [])) else D ++ (if dirty then s_ "-dirty" else [])) with D.
    2:{ destruct dirty; [|rewrite app_nil_r; reflexivity]. rewrite app_length. replace (length D + length (s_ "-dirty") - 6)%nat with (length D) by (cbn; lia).
        rewrite firstn_app, firstn_all, Nat.sub_diag. cbn. rewrite app_nil_r. reflexivity. }
    assert (Cd : contains_char "-" D = true) by (apply contains_char_spec; unfold D, described; apply in_or_app; right; left; reflexivity).
    rewrite Cd. assert (Pd : parse_describe D = Some (s_ "v" ++ tag, num, hex)).
    { apply C114_parse. split; [left; reflexivity|]. split; [discriminate|]. split; [|repeat split; assumption]. intros [Q|Q]; [discriminate|exact (Nt Q)]. }
    rewrite Pd. replace (startswith (s_ "v") (s_ "v" ++ tag)) with true by (symmetry; apply startswith_spec; exists tag; reflexivity). cbn [negb].
    rewrite Ed. cbn [obind]. rewrite skipn_length_app, value_spec, Hv. reflexivity. }
  eexists. exists (fmt_N n). split; [|split; [apply fmt_decimal|]].
  - unfold get_versions. replace (git_versions_from_keywords checkout_keywords (s_ "v")) with (@NotThisMethod info) by (vm_compute; reflexivity).
    cbn [orelse]. fold g. rewrite P. cbn [obind]. unfold render.
    replace (eqb_str (s_ "pep440") [] || eqb_str (s_ "pep440") (s_ "default")) with false by (vm_compute; reflexivity). cbv zeta.
    replace (eqb_str (s_ "pep440") (s_ "pep440")) with true by (vm_compute; reflexivity). cbn [bind of_res]. reflexivity.
  - cbn [version full_revisionid i_dirty i_error]. split; [|repeat split; reflexivity].
    unfold render_pep440, tag_of, p. cbn [p_tag p_distance p_short p_dirty]. destruct tag as [|c t] eqn:Etag; [congruence|]. rewrite <- Etag.
    unfold version_string, beyond. cbn [p_distance p_dirty]. destruct (N.eqb_spec n 0), dirty; cbn [negb andb orb]; try reflexivity;
      unfold plus_or_dot, if_; destruct (in_dec ascii_dec "+"%char tag) as [Hi|Hi];
      [rewrite (proj2 (contains_char_spec "+" tag) Hi)|rewrite (proj2 (contains_false "+" tag) Hi)
      |rewrite (proj2 (contains_char_spec "+" tag) Hi)|rewrite (proj2 (contains_false "+" tag) Hi)
      |rewrite (proj2 (contains_char_spec "+" tag) Hi)|rewrite (proj2 (contains_false "+" tag) Hi)]; reflexivity.
Qed.

(** without a tag: the number of commits and the first seven characters of the revision *)
Theorem C115_untagged : forall file git hex dirty revision commits,
  let g := git (dirname (dirname file)) in
  repository g (hex ++ (if dirty : bool then s_ "-dirty" else [])) revision -> hex <> [] -> Forall hexadecimal hex ->
  Forall (fun w => w <> [] /\ existsb is_space w = false) commits ->
  g (map s_ ["rev-list"; "HEAD"; "--left-right"]%string) = Finished (concat (map (fun w => w ++ [newline]) commits)) 0 ->
  exists i num, get_versions checkout_keywords (Some file) git = Done i /\ decimal (N.of_nat (length commits)) num /\
    version i = s_ "0+untagged." ++ num ++ s_ ".g" ++ firstn 7 revision ++ (if dirty then s_ ".dirty" else []) /\
    full_revisionid i = Some revision /\ i_dirty i = Some dirty /\ i_error i = None.
Proof.
  intros file git hex dirty revision commits g G Hh Fh Fw El.
  destruct (repository_branch _ _ _ G) as [b Eb]. destruct (repository_date _ _ _ G) as [d Ed].
  destruct (has_gitdir _ _ _ G) as [o Eo]. destruct (has_description _ _ _ G) as [T1 A1]. destruct (has_revision _ _ _ G) as [T2 A2].
  assert (Nd : ~ In dash hex) by exact (not_hex dash hex Fh dash_hex).
  assert (End : endswith (s_ "-dirty") (hex ++ (if dirty then s_ "-dirty" else [])) = dirty).
  { destruct dirty; [apply endswith_spec; exists hex; reflexivity|]. rewrite app_nil_r.
    destruct (endswith (s_ "-dirty") hex) eqn:E; [|reflexivity]. apply endswith_spec in E as [t ->]. exfalso.
    apply Nd, in_or_app. right. left. reflexivity. }
  assert (W : forall w s, existsb is_space w = false -> w <> [] ->
     words (w ++ newline :: s) = w :: words s).
  { intros w s Hw Hn. unfold words. rewrite fold_right_app. cbn [fold_right]. replace (is_space newline) with true by reflexivity.
    set (l := fold_right _ [[]] s). clearbody l.
    assert (F : forall u, existsb is_space u = false -> fold_right (fun c l0 => if is_space c then [] :: l0 else match l0 with w0 :: l' => (c :: w0) :: l' | [] => [[c]] end) ([] :: l) u = u :: l).
    { clear. induction u as [|c u IH]; intros H; [reflexivity|]. cbn in H. apply orb_false_iff in H as [H1 H2]. cbn [fold_right]. rewrite H1, IH by exact H2. reflexivity. }
    rewrite F by exact Hw. cbn [filter]. destruct w; [congruence|]. reflexivity. }
  assert (WC : words (concat (map (fun w => w ++ [newline]) commits)) = commits).
  { clear - W Fw. induction commits as [|w l IH]; [reflexivity|]. inversion Fw as [|? ? (H1 & H2) Hl]; subst. cbn [map concat]. rewrite <- app_assoc. cbn [app]. rewrite W, IH by assumption. reflexivity. }
  assert (WS : words (strip_bytes (concat (map (fun w => w ++ [newline]) commits))) = commits).
  { clear - W Fw WC. destruct commits as [|w0 l0] using rev_ind; [reflexivity|]. clear IHl0.
    apply Forall_app in Fw as [Fl Fw]. inversion Fw as [|? ? (H1 & H2) _]; subst.
    assert (E : concat (map (fun w => w ++ [newline]) (l0 ++ [w0])) = [] ++ (concat (map (fun w => w ++ [newline]) l0) ++ w0) ++ [newline]).
    { rewrite map_app, concat_app. cbn. rewrite app_nil_r, app_assoc. reflexivity. }
    assert (NS : forall w, existsb is_space w = false -> w <> [] -> is_space (hd dash w) = false /\ is_space (last w dash) = false).
    { clear. intros w H Hn. assert (F : forall x, In x w -> is_space x = false).
      { intros x Hx. destruct (is_space x) eqn:E; [|reflexivity]. rewrite <- H. symmetry. apply existsb_exists. exists x. split; assumption. }
      split; apply F; [destruct w; [congruence|left; reflexivity]|]. destruct (exists_last Hn) as (u & c & ->). rewrite last_last. apply in_or_app. right. left. reflexivity. }
    rewrite E, strip_bytes_trimmed; [|reflexivity|reflexivity|].
    - clear - W Fl H1 H2. induction l0 as [|w l IH].
      + cbn [map concat app]. unfold words.
        assert (F : forall u, existsb is_space u = false -> u <> [] -> fold_right (fun c l0 => if is_space c then [] :: l0 else match l0 with w0 :: l' => (c :: w0) :: l' | [] => [[c]] end) [[]] u = [u]).
        { clear. intros u. induction u as [|c u IH]; intros H Hn; [congruence|]. cbn in H. apply orb_false_iff in H as [H1 H2]. cbn [fold_right]. rewrite H1.
          destruct u as [|c' u]; [reflexivity|]. rewrite IH by (assumption || discriminate). reflexivity. }
        rewrite F by assumption. cbn. destruct w0; [congruence|reflexivity].
      + inversion Fl as [|? ? (G1 & G2) Fl']; subst. cbn [map concat]. rewrite <- !app_assoc. cbn [app]. rewrite W by assumption. rewrite IH by assumption. reflexivity.
    - destruct (NS w0 H2 H1) as [_ L]. split.
      + destruct l0 as [|w l]; [exact (proj1 (NS w0 H2 H1))|]. inversion Fl as [|? ? (G1 & G2) _]; subst. cbn [map concat]. destruct w as [|c w]; [congruence|].
        exact (proj1 (NS _ G2 G1)).
      + destruct (exists_last H1) as (u & c & ->). rewrite last_last in L. rewrite app_assoc, last_last. exact L. }
  set (p := {| p_long := revision; p_short := firstn 7 revision; p_branch := b; p_dirty := dirty; p_tag := None; p_distance := N.of_nat (length commits); p_date := d |}).
  assert (P : git_pieces_from_vcs g (s_ "v") = Done (Parsed p)).
  { unfold git_pieces_from_vcs. change [s_ "rev-parse"; s_ "--git-dir"] with (map s_ ["rev-parse"; "--git-dir"]%string). unfold runner at 1. rewrite Eo. cbn [run_command Z.eqb obind rc_ok negb].
    change (describe_args (s_ "v")) with (map s_ describe_command). rewrite (runner_answers g describe_command _ T1 A1). cbn [obind].
    change [s_ "rev-parse"; s_ "HEAD"] with (map s_ ["rev-parse"; "HEAD"]%string). rewrite (runner_answers g _ _ T2 A2). cbn [obind].
    rewrite Eb. cbn [obind]. rewrite !(strip_id _ T1), !(strip_id _ T2), End.
    replace (if dirty then firstn (length (hex ++ (if dirty then s_ "-dirty" else [])) - 6) (hex ++ (if dirty then s_ "-dirty" else [])) else hex ++ (if dirty then s_ "-dirty" else [])) with hex.
    2:{ destruct dirty; [|rewrite app_nil_r; reflexivity]. rewrite app_length. replace (length hex + length (s_ "-dirty") - 6)%nat with (length hex) by (cbn; lia).
        rewrite firstn_app, firstn_all, Nat.sub_diag. cbn. rewrite app_nil_r. reflexivity. }
    rewrite (proj2 (contains_false "-" hex) Nd).
    change [s_ "rev-list"; s_ "HEAD"; s_ "--left-right"] with (map s_ ["rev-list"; "HEAD"; "--left-right"]%string). unfold runner at 1. rewrite El. cbn [run_command Z.eqb obind].
    rewrite Ed. cbn [obind]. rewrite WS. reflexivity. }
  eexists. exists (fmt_N (N.of_nat (length commits))). split; [|split; [apply fmt_decimal|]].
  - unfold get_versions. replace (git_versions_from_keywords checkout_keywords (s_ "v")) with (@NotThisMethod info) by (vm_compute; reflexivity).
    cbn [orelse]. fold g. rewrite P. cbn [obind]. unfold render.
    replace (eqb_str (s_ "pep440") [] || eqb_str (s_ "pep440") (s_ "default")) with false by (vm_compute; reflexivity). cbv zeta.
    replace (eqb_str (s_ "pep440") (s_ "pep440")) with true by (vm_compute; reflexivity). cbn [bind of_res]. reflexivity.
  - cbn [version full_revisionid i_dirty i_error]. split; [|repeat split; reflexivity]. unfold render_pep440, if_. cbn [tag_of p_tag p p_distance p_short p_dirty]. destruct dirty; reflexivity.
Qed.

(** a repository: seventeen commits after the tag v1.7.0, modified; the same without tags *)
Definition example_git (description : string) (args : list str) : started :=
  let nl := [newline] in
  let is l := if list_eq_dec (list_eq_dec ascii_dec) args (map s_ l) then true else false in
  if is describe_command then Finished (s_ description ++ nl) 0
  else if is ["rev-parse"; "--git-dir"]%string then Finished (s_ ".git" ++ nl) 0
  else if is ["rev-parse"; "HEAD"]%string then Finished (s_ "d3ce328aa0" ++ nl) 0
  else if is ["rev-parse"; "--abbrev-ref"; "HEAD"]%string then Finished (s_ "main" ++ nl) 0
  else if is ["rev-list"; "HEAD"; "--left-right"]%string then Finished (s_ "d3ce328" ++ nl ++ s_ "7ac1a09" ++ nl) 0
  else if is ["show"; "-s"; "--format=%ci"; "HEAD"]%string then Finished (s_ "2026-11-17 07:55:00 +0000" ++ nl) 0
  else Finished [] 1.
Example C115_case : exists i j : info,
  get_versions checkout_keywords (Some (s_ "/src/geotiepoints/version.py")) (fun _ => example_git "v1.7.0-17-gd3ce328-dirty") = Done i /\
  version i = s_ "1.7.0+17.gd3ce328.dirty" /\ i_date i = Some (s_ "2026-11-17T07:55:00+0000") /\
  get_versions checkout_keywords (Some (s_ "/src/geotiepoints/version.py")) (fun _ => example_git "d3ce328") = Done j /\ version j = s_ "0+untagged.2.gd3ce328".
Proof. do 2 eexists. split; [vm_compute; reflexivity|]. repeat split; vm_compute; reflexivity. Qed.
Example C115_repository : repository (example_git "v1.7.0-17-gd3ce328-dirty") (described (s_ "v" ++ s_ "1.7.0") (s_ "17") (s_ "d3ce328") ++ s_ "-dirty") (s_ "d3ce328aa0").
Proof.
  constructor.
  - eexists. vm_compute. reflexivity.
  - split; [split; reflexivity|]. exists [], [newline]. repeat split; vm_compute; reflexivity.
  - split; [split; reflexivity|]. exists [], [newline]. repeat split; vm_compute; reflexivity.
  - exists (s_ "main"). split; [split; reflexivity|]. split; [exists [], [newline]; repeat split; vm_compute; reflexivity|discriminate].
  - exists (s_ "2026-11-17 07:55:00 +0000"). split; [discriminate|]. split; [split; reflexivity|]. exists [], [newline]. repeat split; vm_compute; reflexivity.
Qed.

(** the date: git prints day, time and zone separated by spaces *)
Lemma pieces_date git prefix p : git_pieces_from_vcs git prefix = Done (Parsed p) -> commit_date git = Done (p_date p).
Proof.
  unfold git_pieces_from_vcs. intros H.
  repeat match type of H with
  | obind ?x _ = _ => let E := fresh "E" in destruct x eqn:E; cbn [obind] in H; [|discriminate H|discriminate H]
  | (let '(_, _) := ?x in _) = _ => destruct x
  | (if ?b then _ else _) = _ => destruct b
  | match ?x with None => _ | Some _ => _ end = _ => destruct x
  | NotThisMethod = _ => discriminate H
  | Raise _ = _ => discriminate H
  | Done (Broken _ _) = _ => discriminate H
  end; try discriminate H; injection H as <-; cbn [p_date]; exact eq_refl.
Qed.
Lemma replace1_first c t u v : ~ In c u -> replace1 c t (u ++ c :: v) = u ++ t ++ v.
Proof.
  induction u as [|d u IH]; intros H; cbn; [destruct (eqb_char_spec c c); [reflexivity|congruence]|].
  destruct (eqb_char_spec c d) as [->|]; [exfalso; apply H; left; reflexivity|]. rewrite IH; [reflexivity|]. intros Q. apply H. right. exact Q.
Qed.
Lemma splitlines_one s : s <> [] -> existsb is_eol s = false -> splitlines s = [s].
Proof.
  induction s as [|c s IH]; intros Hn H; [congruence|]. cbn in H. apply orb_false_iff in H as [H1 H2]. cbn [splitlines]. rewrite H1.
  destruct s as [|d s]; [reflexivity|]. cbn in H2. apply orb_false_iff in H2 as [H2 H3]. rewrite H2, IH; [reflexivity|discriminate|]. cbn. rewrite H2, H3. reflexivity.
Qed.
Definition word (s : str) : Prop := s <> [] /\ Forall (fun c => is_space c = false) s.
Lemma eol_space c : is_space c = false -> is_eol c = false.
Proof.
  unfold is_space, is_eol, code. rewrite !orb_false_iff, !andb_false_iff, !N.leb_gt, !N.eqb_neq. intros [[[H1 H2] H3] H4]. repeat split; lia.
Qed.
(** what ends a line *)
Inductive line_end : str -> Prop :=
| end_crlf : line_end ["013"%char; "010"%char]
| end_char c : In (N_of_ascii c) [10; 11; 12; 13; 28; 29; 30; 133]%N -> line_end [c].
Lemma eol_char c : is_eol c = true <-> In (N_of_ascii c) [10; 11; 12; 13; 28; 29; 30; 133]%N.
Proof. unfold is_eol, code. rewrite !orb_true_iff, !andb_true_iff, !N.leb_le, N.eqb_eq. cbn [In]. split; [intros H|]; lia. Qed.
Lemma eol_last e : line_end e -> exists u c, e = u ++ [c] /\ is_eol c = true.
Proof. intros [|c H]; [exists ["013"%char], "010"%char; split; reflexivity|]. exists [], c. split; [reflexivity|apply eol_char, H]. Qed.
(** lines that have ended do not touch those that follow *)
Lemma splitlines_end x c y : is_eol c = true -> is_eol (hd dash y) = false -> splitlines (x ++ c :: y) = splitlines (x ++ [c]) ++ splitlines y.
Proof.
  intros Hc Hy. remember (length x) as n eqn:En. revert x En. induction n as [n IH] using lt_wf_ind. intros x En. destruct x as [|d x].
  - cbn [app splitlines]. rewrite Hc. destruct y as [|e y]; [reflexivity|]. cbn [hd] in Hy.
    replace (code e =? 10)%N with false; [rewrite andb_false_r; reflexivity|]. symmetry. apply N.eqb_neq. intros Q.
    assert (F : is_eol e = true) by (apply eol_char; unfold code in Q; rewrite Q; left; reflexivity). congruence.
  - cbn [app]. cbn [splitlines]. destruct x as [|d' x].
    + cbn [app]. specialize (IH 0%nat ltac:(cbn in En; lia) [] eq_refl). cbn [app] in IH. destruct (is_eol d).
      * destruct ((code d =? 13)%N && (code c =? 10)%N); [reflexivity|]. rewrite IH. reflexivity.
      * rewrite Hc, IH. cbn [splitlines]. rewrite Hc. reflexivity.
    + cbn [app]. assert (I1 := IH (length (d' :: x)) ltac:(cbn in *; lia) (d' :: x) eq_refl). assert (I2 := IH (length x) ltac:(cbn in *; lia) x eq_refl). cbn [app] in I1.
      destruct (is_eol d).
      * destruct ((code d =? 13)%N && (code d' =? 10)%N); [rewrite I2|rewrite I1]; reflexivity.
      * rewrite I1. assert (Ne : splitlines (d' :: x ++ [c]) <> []).
        { clear. cbn [splitlines]. destruct (x ++ [c]); destruct (is_eol d'); try discriminate.
          - destruct (_ && _); discriminate.
          - destruct (is_eol a); destruct (splitlines _); discriminate. }
        destruct (splitlines (d' :: x ++ [c])); [congruence|]. destruct (is_eol d'); reflexivity.
Qed.
Lemma splitlines_closed l e : l <> [] -> existsb is_eol l = false -> line_end e -> splitlines (l ++ e) = [l].
Proof.
  intros Hn H He. assert (He' : splitlines e = [[]] /\ exists c e', e = c :: e' /\ is_eol c = true).
  { destruct He as [|c Hc]; [split; [reflexivity|]; do 2 eexists; split; reflexivity|]. apply eol_char in Hc. split; [cbn [splitlines]; rewrite Hc; reflexivity|]. do 2 eexists. split; [reflexivity|exact Hc]. }
  destruct He' as (S & c & e' & -> & Hc). induction l as [|d l IH]; [congruence|]. cbn in H. apply orb_false_iff in H as [H1 H2].
  destruct l as [|d' l].
  - cbn [app]. change (splitlines (d :: c :: e')) with (if is_eol d then match c :: e' with [] => [[]] | d0 :: s'' => if ((code d =? 13) && (code d0 =? 10))%N then [] :: splitlines s'' else [] :: splitlines (c :: e') end
      else if is_eol c then match splitlines (c :: e') with _ :: l => [d] :: l | [] => [[d]] end else match splitlines (c :: e') with w :: l => (d :: w) :: l | [] => [[d]] end).
    rewrite H1, Hc, S. reflexivity.
  - specialize (IH ltac:(discriminate) H2). cbn in H2. apply orb_false_iff in H2 as [H2 H3]. cbn [app] in IH |- *.
    change (splitlines (d :: d' :: l ++ c :: e')) with (if is_eol d then (if ((code d =? 13) && (code d' =? 10))%N then [] :: splitlines (l ++ c :: e') else [] :: splitlines (d' :: l ++ c :: e'))
      else if is_eol d' then match splitlines (d' :: l ++ c :: e') with _ :: l => [d] :: l | [] => [[d]] end else match splitlines (d' :: l ++ c :: e') with w :: l => (d :: w) :: l | [] => [[d]] end).
    rewrite H1, H2, IH. reflexivity.
Qed.
Lemma word_eol s : Forall (fun c => is_space c = false) s -> existsb is_eol s = false.
Proof. induction 1 as [|c s H F IH]; [reflexivity|]. cbn. rewrite (eol_space c H). exact IH. Qed.
Lemma word_blank s : Forall (fun c => is_space c = false) s -> ~ In " "%char s.
Proof. intros F I. rewrite Forall_forall in F. specialize (F _ I). discriminate F. Qed.
(** day, time and zone on the last line, whatever lines come before *)
Lemma iso_last before close day time zone : before = [] \/ (exists u e, before = u ++ e /\ line_end e) -> close = [] \/ line_end close -> word day -> word time -> word zone ->
  iso_date (before ++ (day ++ s_ " " ++ time ++ s_ " " ++ zone) ++ close) = Done (day ++ s_ "T" ++ time ++ zone).
Proof.
  intros Hb Hc [D1 D2] [T1 T2] [Z1 Z2]. set (d := day ++ s_ " " ++ time ++ s_ " " ++ zone).
  assert (Tr : trimmed d).
  { split; unfold d.
    - destruct day as [|c day]; [congruence|]. inversion D2; assumption.
    - destruct (exists_last Z1) as (z & c & ->). rewrite !app_assoc, last_last. apply Forall_app in Z2 as [_ Z2]. inversion Z2; assumption. }
  assert (Hn : d <> []) by (unfold d; destruct day; [congruence|discriminate]).
  assert (He : existsb is_eol d = false) by (unfold d; rewrite !existsb_app, (word_eol day D2), (word_eol time T2), (word_eol zone Z2); reflexivity).
  assert (L : splitlines (d ++ close) = [d]) by (destruct Hc as [->|Hc]; [rewrite app_nil_r; apply splitlines_one; assumption|apply splitlines_closed; assumption]).
  assert (R : exists k, splitlines (before ++ d ++ close) = k ++ [d]).
  { destruct Hb as [->|(u & e & -> & H)]; [exists []; exact L|]. destruct (eol_last e H) as (v & c & -> & Ec).
    exists (splitlines ((u ++ v) ++ [c])). rewrite <- L, <- splitlines_end; [f_equal; rewrite <- !app_assoc; reflexivity|exact Ec|].
    destruct d as [|x d']; [congruence|]. cbn in He. apply orb_false_iff in He as [He _]. exact He. }
  destruct R as (k & R). unfold iso_date. rewrite R, rev_app_distr. cbn [rev app]. rewrite strip_id by exact Tr. unfold d. change (s_ " ") with [" "%char]. cbn [app].
  rewrite replace1_first by (apply word_blank, D2). change (s_ "T") with ["T"%char]. cbn [app].
  replace (day ++ "T"%char :: time ++ " "%char :: zone) with ((day ++ "T"%char :: time) ++ " "%char :: zone) by (rewrite <- app_assoc; reflexivity).
  rewrite replace1_first; [cbn [app]; rewrite <- app_assoc; reflexivity|]. intros I. apply in_app_or in I as [I|[I|I]]; [exact (word_blank _ D2 I)|discriminate I|exact (word_blank _ T2 I)].
Qed.
(** git may print more lines before the date, such as those about a signature *)
Theorem C115_signed : forall file git before day time zone i, let g := git (dirname (dirname file)) in
  word day -> word time -> word zone -> before = [] \/ (is_space (hd dash before) = false /\ exists u e, before = u ++ e /\ line_end e) ->
  answers g ["show"; "-s"; "--format=%ci"; "HEAD"]%string (before ++ day ++ s_ " " ++ time ++ s_ " " ++ zone) ->
  get_versions checkout_keywords (Some file) git = Done i ->
  i_date i = (match full_revisionid i, i_error i with Some _, None => Some (day ++ s_ "T" ++ time ++ zone) | _, _ => None end).
Proof.
  intros file git before day time zone i g D T Z Hb A. unfold get_versions.
  replace (git_versions_from_keywords checkout_keywords (s_ "v")) with (@NotThisMethod info) by (vm_compute; reflexivity). cbn [orelse]. fold g.
  assert (C : commit_date g = Done (day ++ s_ "T" ++ time ++ zone)).
  { assert (Tr : trimmed (before ++ day ++ s_ " " ++ time ++ s_ " " ++ zone)).
    { destruct D as [D1 D2], T as [T1 T2], Z as [Z1 Z2]. split.
      - destruct Hb as [->|(Hb & _)]; [|destruct before as [|c before]; [|exact Hb]]; (destruct day as [|c day]; [congruence|]; inversion D2; assumption).
      - destruct (exists_last Z1) as (z & c & ->). rewrite !app_assoc, last_last. apply Forall_app in Z2 as [_ Z2]. inversion Z2; assumption. }
    unfold commit_date. change [s_ "show"; s_ "-s"; s_ "--format=%ci"; s_ "HEAD"] with (map s_ ["show"; "-s"; "--format=%ci"; "HEAD"]%string).
    rewrite (runner_answers g _ _ Tr A). cbn [obind]. rewrite strip_id by exact Tr.
    rewrite <- (app_nil_r (day ++ _)). apply iso_last; try assumption; [|left; reflexivity]. destruct Hb as [Hb|[_ Hb]]; [left|right]; exact Hb. }
  assert (F : forall i, orelse (versions_from_parentdir (s_ "None") (dirname (dirname file))) (Done (unknown "unable to compute version")) = Done i -> i_date i = None /\ full_revisionid i = None).
  { clear. intros i. unfold versions_from_parentdir. cbn [from_parentdir].
    repeat (match goal with |- context [if ?b then _ else _] => destruct b end; [cbn [orelse]; intros H; injection H as <-; split; reflexivity|]).
    cbn [orelse]. intros H; injection H as <-; split; reflexivity. }
  destruct (git_pieces_from_vcs g (s_ "v")) as [[l e|p]| |e] eqn:E; cbn [obind orelse]; intros H.
  - injection H as <-. reflexivity.
  - apply pieces_date in E. rewrite C in E. injection E as E. unfold render in H.
    replace (eqb_str (s_ "pep440") [] || eqb_str (s_ "pep440") (s_ "default")) with false in H by (vm_compute; reflexivity). cbv zeta in H.
    replace (eqb_str (s_ "pep440") (s_ "pep440")) with true in H by (vm_compute; reflexivity). cbn [bind of_res orelse] in H. injection H as <-. cbn. rewrite E. reflexivity.
  - apply F in H as [-> ->]. reflexivity.
  - discriminate H.
Qed.
Theorem C115_date : forall file git day time zone i, let g := git (dirname (dirname file)) in
  word day -> word time -> word zone -> answers g ["show"; "-s"; "--format=%ci"; "HEAD"]%string (day ++ s_ " " ++ time ++ s_ " " ++ zone) ->
  get_versions checkout_keywords (Some file) git = Done i ->
  i_date i = (match full_revisionid i, i_error i with Some _, None => Some (day ++ s_ "T" ++ time ++ zone) | _, _ => None end).
Proof. intros file git day time zone i g D T Z A. apply (C115_signed file git [] day time zone i D T Z); [left; reflexivity|exact A]. Qed.
Example C115_signed_case : splitlines (s_ "Good signature" ++ ["013"%char; "010"%char] ++ s_ "2026-11-17 07:55:00 +0000") = [s_ "Good signature"; s_ "2026-11-17 07:55:00 +0000"] /\
  iso_date (s_ "Good signature" ++ ["013"%char; "010"%char] ++ s_ "2026-11-17 07:55:00 +0000") = Done (s_ "2026-11-17T07:55:00+0000").
Proof. split; reflexivity. Qed.

(** ** C116: different states have different versions *)
Lemma not_in_version c num hex : ~ digit c -> ~ hexadecimal c -> Forall digit num -> Forall hexadecimal hex -> c <> "."%char -> c <> "g"%char ->
  forall dirty : bool, ~ In c (s_ ".dirty") -> ~ In c (num ++ s_ ".g" ++ hex ++ (if dirty then s_ ".dirty" else [])).
Proof.
  intros Hd Hx Fn Fh C1 C2 dirty Nd Hi. rewrite !in_app_iff in Hi. destruct Hi as [Hi|[Hi|[Hi|Hi]]].
  - exact (not_digit c num Fn Hd Hi).
  - destruct Hi as [Hi|[Hi|[]]]; congruence.
  - exact (not_hex c hex Fh Hx Hi).
  - destruct dirty; [exact (Nd Hi)|destruct Hi].
Qed.
Lemma version_parts num hex num' hex' (dirty dirty' : bool) : Forall digit num -> Forall digit num' -> Forall hexadecimal hex -> Forall hexadecimal hex' ->
  num ++ s_ ".g" ++ hex ++ (if dirty then s_ ".dirty" else []) = num' ++ s_ ".g" ++ hex' ++ (if dirty' then s_ ".dirty" else []) ->
  num = num' /\ hex = hex' /\ dirty = dirty'.
Proof.
  intros Fn Fn' Fh Fh' E. cbn [s_ list_ascii_of_string app] in E.
  apply first_unique in E as [-> E]; [|exact (not_digit _ _ Fn dot_digit)|exact (not_digit _ _ Fn' dot_digit)].
  injection E as E. pose proof (not_hex _ _ Fh dot_hex) as N1. pose proof (not_hex _ _ Fh' dot_hex) as N2.
  destruct dirty, dirty'; rewrite ?app_nil_r in E.
  - apply first_unique in E as [-> _]; [|assumption..]. repeat split.
  - exfalso. apply N2. rewrite <- E. apply in_or_app. right. left. reflexivity.
  - exfalso. apply N1. rewrite E. apply in_or_app. right. left. reflexivity.
  - subst. repeat split.
Qed.

Theorem C116_distinct : forall tag num hex n dirty tag' num' hex' n' dirty',
  ~ In "+"%char tag -> ~ In "+"%char tag' -> decimal n num -> decimal n' num' -> Forall hexadecimal hex -> Forall hexadecimal hex' ->
  version_string tag num hex n dirty = version_string tag' num' hex' n' dirty' ->
  tag = tag' /\ n = n' /\ dirty = dirty' /\ ((n = 0%N /\ dirty = false) \/ hex = hex').
Proof.
  intros tag num hex n dirty tag' num' hex' n' dirty' P P' D D' Fh Fh'. destruct D as (_ & Fn & Dn & _), D' as (_ & Fn' & Dn' & _). unfold version_string.
  destruct (in_dec ascii_dec "+"%char tag) as [|_]; [contradiction|]. destruct (in_dec ascii_dec "+"%char tag') as [|_]; [contradiction|].
  assert (B : forall n dirty, (n =? 0)%N && negb dirty = true -> n = 0%N /\ dirty = false).
  { intros m [] H; apply andb_true_iff in H as [H1 H2]; [discriminate|]. apply N.eqb_eq in H1. split; [exact H1|reflexivity]. }
  destruct ((n =? 0)%N && negb dirty) eqn:E1; destruct ((n' =? 0)%N && negb dirty') eqn:E2; intros E.
  - apply B in E1 as [-> ->]. apply B in E2 as [-> ->]. repeat split; [exact E|]. left. split; reflexivity.
  - exfalso. apply P. rewrite E. apply in_or_app. right. left. reflexivity.
  - exfalso. apply P'. rewrite <- E. apply in_or_app. right. left. reflexivity.
  - cbn [s_ list_ascii_of_string app] in E. apply first_unique in E as [-> E]; [|assumption..].
    apply (version_parts num hex num' hex' dirty dirty') in E as (-> & -> & ->); [|assumption..].
    rewrite Dn in Dn'. repeat split; [exact Dn'|]. right. reflexivity.
Qed.
Example C116_case : version_string (s_ "1.7.0") (s_ "17") (s_ "d3ce") 17 true = s_ "1.7.0+17.gd3ce.dirty".
Proof. reflexivity. Qed.
(** not so for tags with a plus sign: the commit 1.0+1.gab and one commit after 1.0 *)
Example C116_plus_tags : exists tag tag' num hex n dirty n' dirty', decimal n num /\ Forall hexadecimal hex /\ tag <> tag' /\
  version_string tag num hex n dirty = version_string tag' num hex n' dirty'.
Proof.
  exists (s_ "1.0"), (s_ "1.0+1.gab"), (s_ "1"), (s_ "ab"), 1%N, false, 0%N, false. split; [|split; [|split; [discriminate|reflexivity]]].
  - split; [discriminate|]. split; [|split; [reflexivity|discriminate]]. repeat (apply Forall_cons || apply Forall_nil); unfold digit; cbn; lia.
  - repeat (apply Forall_cons || apply Forall_nil); right; cbn; lia.
Qed.
(** a version has a local part (after a plus sign), and only one *)
Theorem C116_local : forall tag num hex n dirty, decimal n num -> Forall hexadecimal hex -> (plusses tag <= 1)%nat ->
  (n <> 0%N \/ dirty = true -> plusses (version_string tag num hex n dirty) = 1%nat) /\
  (n = 0%N -> dirty = false -> version_string tag num hex n dirty = tag).
Proof.
  intros tag num hex n dirty (_ & Fn & _ & _) Fh P. split; [|intros -> ->; reflexivity]. intros H. unfold version_string.
  replace ((n =? 0)%N && negb dirty) with false by (symmetry; destruct H as [H | ->]; [apply N.eqb_neq in H; rewrite H|apply andb_false_r]; reflexivity).
  unfold plusses in *. rewrite count_occ_app. rewrite count_occ_app.
  rewrite (proj1 (count_occ_not_In ascii_dec (num ++ s_ ".g" ++ hex ++ (if dirty then s_ ".dirty" else [])) "+"%char)).
  2:{ apply not_in_version; try assumption; try discriminate; [exact plus_digit|exact plus_hex|]. cbn. intuition discriminate. }
  destruct (in_dec ascii_dec "+"%char tag) as [Hi|Hi].
  - apply (count_occ_In ascii_dec) in Hi. change (count_occ ascii_dec (s_ ".") "+"%char) with 0%nat. lia.
  - apply (count_occ_not_In ascii_dec) in Hi. rewrite Hi. reflexivity.
Qed.

(** ** C117: archives: the keywords expanded by git *)
Lemma before_spec a b : ltb_str a b = true <-> before a b.
Proof.
  revert b. induction a as [|x a IH]; intros [|y b]; cbn.
  - split; [discriminate|inversion 1].
  - split; [constructor|reflexivity].
  - split; [discriminate|inversion 1].
  - rewrite orb_true_iff, andb_true_iff, N.ltb_lt, IH. unfold code. split.
    + intros [H|[H1 H2]]; [apply before_char, H|]. destruct (eqb_char_spec x y) as [->|]; [apply before_cons, H2|discriminate].
    + inversion 1; subst; [left; assumption|right]. split; [destruct (eqb_char_spec y y); congruence|assumption].
Qed.
Lemma before_total a b : before a b \/ a = b \/ before b a.
Proof.
  revert b. induction a as [|x a IH]; intros [|y b].
  - right. left. reflexivity.
  - left. constructor.
  - right. right. constructor.
  - destruct (N.lt_trichotomy (N_of_ascii x) (N_of_ascii y)) as [H|[H|H]].
    + left. apply before_char, H.
    + assert (x = y) as -> by (rewrite <- (ascii_N_embedding x), <- (ascii_N_embedding y), H; reflexivity).
      destruct (IH b) as [G|[-> |G]]; [left; apply before_cons, G|right; left; reflexivity|right; right; apply before_cons, G].
    + right. right. apply before_char, H.
Qed.
Lemma before_trans a b c : before a b -> before b c -> before a c.
Proof.
  intros H. revert c. induction H as [d s|x y s t L|x s t H IH]; intros c G; inversion G; subst.
  - constructor.
  - constructor.
  - apply before_char. lia.
  - apply before_char. assumption.
  - apply before_char. assumption.
  - apply before_cons, IH. assumption.
Qed.
Lemma before_irrefl a : ~ before a a.
Proof. induction a as [|x a IH]; inversion 1; subst; [lia|contradiction]. Qed.
Lemma before_prefix a c s : before a (a ++ c :: s).
Proof. induction a as [|x a IH]; [constructor|]. cbn. apply before_cons, IH. Qed.
Lemma insert_in x l y : In y (insert x l) <-> y = x \/ In y l.
Proof.
  induction l as [|z l IH]; cbn.
  - intuition congruence.
  - destruct (ltb_str x z); [cbn; intuition congruence|]. destruct (eqb_str_spec x z) as [->|]; cbn; [intuition congruence|]. rewrite IH. tauto.
Qed.
Lemma sorted_set_in l y : In y (sorted_set l) <-> In y l.
Proof. induction l as [|x l IH]; cbn; [reflexivity|]. rewrite insert_in, IH. intuition congruence. Qed.
Inductive ascending : list str -> Prop :=
| asc_nil : ascending []
| asc_cons x l : (forall y, In y l -> before x y) -> ascending l -> ascending (x :: l).
Lemma insert_ascending x l : ascending l -> ascending (insert x l).
Proof.
  induction 1 as [|z l Hz Hl IH]; cbn; [constructor; [intros y []|constructor]|].
  destruct (ltb_str x z) eqn:E.
  - apply before_spec in E. constructor; [|constructor; assumption]. intros y [<- |Hy]; [exact E|]. exact (before_trans _ _ _ E (Hz y Hy)).
  - destruct (eqb_str_spec x z) as [->|Hn]; [constructor; assumption|]. constructor; [|exact IH].
    intros y Hy. apply insert_in in Hy as [-> |Hy]; [|exact (Hz y Hy)].
    destruct (before_total x z) as [B|[B|B]]; [apply before_spec in B; congruence|congruence|exact B].
Qed.
Lemma sorted_set_ascending l : ascending (sorted_set l).
Proof. induction l as [|x l IH]; cbn; [constructor|apply insert_ascending, IH]. Qed.
Lemma find_least f l x : ascending l -> find f l = Some x -> In x l /\ f x = true /\ forall y, In y l -> f y = true -> y = x \/ before x y.
Proof.
  induction 1 as [|z l Hz Hl IH]; cbn; [discriminate|]. destruct (f z) eqn:E.
  - intros Q. injection Q as ->. split; [left; reflexivity|]. split; [exact E|]. intros y [-> |Hy] _; [left; reflexivity|right; exact (Hz y Hy)].
  - intros Q. destruct (IH Q) as (A & B & C). split; [right; exact A|]. split; [exact B|]. intros y [-> |Hy] Fy; [congruence|]. exact (C y Hy Fy).
Qed.

(** refs as git writes them: (HEAD -> main, tag: v1.0) *)
Fixpoint join_refs (refs : list str) : str :=
  match refs with [] => [] | [r] => r | r :: refs' => r ++ s_ ", " ++ join_refs refs' end.
Definition ref_ok (r : str) : Prop := r <> [] /\ trimmed r /\ ~ In ","%char r /\ ~ In "("%char r /\ ~ In ")"%char r.
(** a tag of the archived commit; git before 1.8.3 does not tell tags from branches *)
Definition named (refs : list str) (t : str) : Prop :=
  In (s_ "tag: " ++ t) refs \/ (~ (exists u, In (s_ "tag: " ++ u) refs) /\ In t refs).
Definition release (refs : list str) (w : str) : Prop := named refs (s_ "v" ++ w) /\ exists c u, w = c :: u /\ digit c.

Lemma split_char_one c s : ~ In c s -> split_char c s = [s].
Proof.
  induction s as [|d s IH]; intros H; [reflexivity|]. cbn. destruct (eqb_char_spec c d) as [->|]; [exfalso; apply H; left; reflexivity|].
  rewrite IH; [reflexivity|]. intros Q. apply H. right. exact Q.
Qed.
Lemma split_char_cons c s t : ~ In c s -> split_char c (s ++ c :: t) = s :: split_char c t.
Proof.
  induction s as [|d s IH]; intros H; cbn; [destruct (eqb_char_spec c c); [reflexivity|congruence]|].
  destruct (eqb_char_spec c d) as [->|]; [exfalso; apply H; left; reflexivity|]. rewrite IH; [reflexivity|]. intros Q. apply H. right. exact Q.
Qed.
Lemma split_refs refs : refs <> [] -> Forall ref_ok refs -> map strip (split_char "," (join_refs refs)) = refs /\ map strip (split_char "," (" "%char :: join_refs refs)) = refs.
Proof.
  assert (S1 : forall r, ref_ok r -> strip r = r) by (intros r (_ & T & _); apply strip_id, T).
  assert (S2 : forall r, ref_ok r -> strip (" "%char :: r) = r).
  { intros r (_ & T & _). pose proof (strip_trimmed [" "%char] r [] eq_refl eq_refl T) as E. rewrite app_nil_r in E. exact E. }
  assert (C2 : forall r, ref_ok r -> ~ In ","%char (" "%char :: r)) by (intros r (_ & _ & C & _) [Q|Q]; [discriminate|exact (C Q)]).
  intros Hn F. induction F as [|r l Hr Hl IH]; [congruence|]. destruct l as [|r' l].
  - cbn [join_refs]. rewrite !split_char_one; [|apply C2, Hr|apply Hr]. cbn [map]. rewrite S1, S2 by exact Hr. split; reflexivity.
  - destruct (IH ltac:(discriminate)) as [_ E]. change (join_refs (r :: r' :: l)) with (r ++ ","%char :: " "%char :: join_refs (r' :: l)).
    split.
    + rewrite split_char_cons by apply Hr. cbn [map]. rewrite S1 by exact Hr. f_equal. exact E.
    + change (" "%char :: r ++ ","%char :: " "%char :: join_refs (r' :: l)) with ((" "%char :: r) ++ ","%char :: " "%char :: join_refs (r' :: l)).
      rewrite split_char_cons by (apply C2, Hr). cbn [map]. rewrite S2 by exact Hr. f_equal. exact E.
Qed.
Lemma join_ends refs : refs <> [] -> Forall ref_ok refs -> let paren c := eqb_char c "(" || eqb_char c ")" in
  paren (hd dash (join_refs refs)) = false /\ paren (last (join_refs refs) dash) = false.
Proof.
  intros Hn F paren.
  assert (P : forall r c, ref_ok r -> In c r -> paren c = false).
  { intros r c (_ & _ & _ & A & B) Hc. unfold paren. destruct (eqb_char_spec c "(") as [->|]; [contradiction|]. destruct (eqb_char_spec c ")") as [->|]; [contradiction|]. reflexivity. }
  assert (H : forall r, ref_ok r -> paren (hd dash r) = false) by (intros r Hr; apply (P r _ Hr); destruct r; [destruct Hr; congruence|left; reflexivity]).
  assert (L : forall r, ref_ok r -> paren (last r dash) = false).
  { intros r Hr. apply (P r _ Hr). destruct (exists_last (proj1 Hr)) as (u & c & ->). rewrite last_last. apply in_or_app. right. left. reflexivity. }
  assert (LA : forall (a b : str), b <> [] -> last (a ++ b) dash = last b dash).
  { intros a b Hb. destruct (exists_last Hb) as (u & c & ->). rewrite app_assoc, !last_last. reflexivity. }
  split.
  - destruct F as [|r l Hr Hl]; [congruence|]. destruct l as [|r' l]; [exact (H r Hr)|]. cbn [join_refs]. specialize (H r Hr). destruct r as [|c r]; [destruct Hr; congruence|exact H].
  - induction F as [|r l Hr Hl IH]; [congruence|]. destruct l as [|r' l]; [exact (L r Hr)|].
    change (join_refs (r :: r' :: l)) with (r ++ s_ ", " ++ join_refs (r' :: l)).
    assert (NE : join_refs (r' :: l) <> []) by (inversion Hl as [|? ? (Q & _) _]; subst; cbn; destruct l; [exact Q|destruct r'; [congruence|discriminate]]).
    rewrite app_assoc, LA by exact NE. apply IH. discriminate.
Qed.
Lemma candidates refs w w' t : refs <> [] -> Forall ref_ok refs -> forallb is_space w = true -> forallb is_space w' = true ->
  existsb is_digit t = true ->
  (In t (candidate_tags (strip (w ++ (s_ "(" ++ join_refs refs ++ s_ ")") ++ w'))) <-> named refs t).
Proof.
  intros Hn F Hw Hw' Ht. rewrite strip_trimmed; [|assumption..|].
  2:{ split; [reflexivity|]. change (s_ ")") with [")"%char]. rewrite app_assoc, last_last. reflexivity. }
  unfold candidate_tags. destruct (join_ends refs Hn F) as [J1 J2]. rewrite strip_of_trimmed; [|reflexivity|reflexivity|exact J1|exact J2].
  rewrite (proj1 (split_refs refs Hn F)).
  assert (T : forall u, In u (map (skipn 5) (filter (startswith (s_ "tag: ")) refs)) <-> In (s_ "tag: " ++ u) refs).
  { intros u. rewrite in_map_iff. split.
    - intros (r & <- & Hr). apply filter_In in Hr as [Hr S]. apply startswith_spec in S as [v ->]. exact Hr.
    - intros H. exists (s_ "tag: " ++ u). split; [reflexivity|]. apply filter_In. split; [exact H|]. apply startswith_spec. exists u. reflexivity. }
  unfold named. destruct (map (skipn 5) (filter (startswith (s_ "tag: ")) refs)) as [|a l] eqn:E.
  - rewrite filter_In. split; [intros [H _]; right|].
    + split; [|exact H]. intros [u Hu]. apply T in Hu. exact Hu.
    + intros [H|[_ H]]; [apply T in H; destruct H|]. split; assumption.
  - rewrite (T t). split; [intros H; left; exact H|]. intros [H|[H _]]; [exact H|]. exfalso. apply H. exists a. apply T. left. reflexivity.
Qed.

Lemma qualifies_spec ref : qualifies (s_ "v") ref = true <-> exists c u, ref = s_ "v" ++ c :: u /\ digit c.
Proof.
  unfold qualifies. rewrite andb_true_iff, startswith_spec. split.
  - intros [[t ->] H]. rewrite skipn_length_app in H. destruct t as [|c u]; [discriminate|]. exists c, u. split; [reflexivity|apply digit_spec, H].
  - intros (c & u & -> & H). split; [exists (c :: u); reflexivity|]. rewrite skipn_length_app. apply digit_spec, H.
Qed.
Lemma digit_in (c : ascii) u : digit c -> existsb is_digit (s_ "v" ++ c :: u) = true.
Proof. intros H. apply existsb_exists. exists c. split; [right; left; reflexivity|apply digit_spec, H]. Qed.

Theorem C117_archive : forall refs w w' full date file git, refs <> [] -> Forall ref_ok refs -> forallb is_space w = true -> forallb is_space w' = true -> date <> [] ->
  exists i, get_versions {| k_refnames := Some (w ++ (s_ "(" ++ join_refs refs ++ s_ ")") ++ w'); k_full := Some full; k_date := Some date |} file git = Done i /\
    full_revisionid i = Some (strip full) /\ i_dirty i = Some false /\
    ((i_error i = None /\ release refs (version i) /\ forall v, release refs v -> v = version i \/ before (version i) v) \/
     (i_error i <> None /\ version i = s_ "0+unknown" /\ forall v, ~ release refs v)).
Proof.
  intros refs w w' full date file git Hn F Hw Hw' Hd. destruct (iso_date_done date Hd) as [d Ed].
  set (k := {| k_refnames := _ |}). unfold get_versions.
  set (R := strip (w ++ (s_ "(" ++ join_refs refs ++ s_ ")") ++ w')).
  assert (Rp : R = s_ "(" ++ join_refs refs ++ s_ ")").
  { unfold R. apply strip_trimmed; try assumption. split; [reflexivity|]. change (s_ ")") with [")"%char]. rewrite app_assoc, last_last. reflexivity. }
  assert (E : git_versions_from_keywords k (s_ "v") =
     match find (qualifies (s_ "v")) (sorted_set (candidate_tags R)) with
     | Some ref => Done {| version := skipn 1 ref; full_revisionid := Some (strip full); i_dirty := Some false; i_error := None; i_date := Some d |}
     | None => Done {| version := s_ "0+unknown"; full_revisionid := Some (strip full); i_dirty := Some false; i_error := Some (s_ "no suitable tags"); i_date := None |}
     end).
  { unfold git_versions_from_keywords, k. cbn [k_refnames k_full k_date]. rewrite Ed. cbn [obind]. fold R.
    replace (startswith (s_ "$Format") R) with false by (rewrite Rp; reflexivity). cbn [obind]. reflexivity. }
  rewrite E. destruct (find (qualifies (s_ "v")) (sorted_set (candidate_tags R))) as [ref|] eqn:Ef; cbn [orelse].
  - eexists. split; [reflexivity|]. cbn [version full_revisionid i_dirty i_error]. split; [reflexivity|]. split; [reflexivity|]. left. split; [reflexivity|].
    destruct (find_least _ _ _ (sorted_set_ascending _) Ef) as (A & B & C). apply qualifies_spec in B as (c & u & -> & Hc). change (skipn 1 (s_ "v" ++ c :: u)) with (c :: u).
    split.
    + split; [|exists c, u; split; [reflexivity|exact Hc]]. apply (candidates refs w w'); try assumption; [apply digit_in, Hc|]. apply sorted_set_in, A.
    + intros v [Hv (c' & u' & -> & Hc')]. destruct (C (s_ "v" ++ c' :: u')) as [Q|Q].
      * apply sorted_set_in. apply (candidates refs w w'); try assumption. apply digit_in, Hc'.
      * apply qualifies_spec. exists c', u'. split; [reflexivity|exact Hc'].
      * left. injection Q as -> ->. reflexivity.
      * right. cbn in Q. inversion Q as [| |? ? ? Q']; subst; [lia|exact Q'].
  - eexists. split; [reflexivity|]. cbn [version full_revisionid i_dirty i_error]. split; [reflexivity|]. split; [reflexivity|]. right. split; [discriminate|]. split; [reflexivity|].
    intros v [Hv (c & u & -> & Hc)]. assert (Q : qualifies (s_ "v") (s_ "v" ++ c :: u) = false).
    { eapply find_none in Ef; [exact Ef|]. apply sorted_set_in. apply (candidates refs w w'); try assumption. apply digit_in, Hc. }
    assert (Q' : qualifies (s_ "v") (s_ "v" ++ c :: u) = true) by (apply qualifies_spec; exists c, u; split; [reflexivity|exact Hc]). congruence.
Qed.
(** the date of an archive is that on the last line of the keyword *)
Theorem C117_date : forall refs w w' full before close day time zone file git i, refs <> [] -> Forall ref_ok refs -> forallb is_space w = true -> forallb is_space w' = true ->
  word day -> word time -> word zone -> before = [] \/ (exists u e, before = u ++ e /\ line_end e) -> close = [] \/ line_end close ->
  get_versions {| k_refnames := Some (w ++ (s_ "(" ++ join_refs refs ++ s_ ")") ++ w'); k_full := Some full; k_date := Some (before ++ (day ++ s_ " " ++ time ++ s_ " " ++ zone) ++ close) |} file git = Done i ->
  i_error i = None -> i_date i = Some (day ++ s_ "T" ++ time ++ zone).
Proof.
  intros refs w w' full before close day time zone file git i Hn F Hw Hw' D T Z Hb Hc. pose proof (iso_last before close day time zone Hb Hc D T Z) as Ed.
  set (k := {| k_refnames := _ |}). unfold get_versions.
  assert (Rp : strip (w ++ (s_ "(" ++ join_refs refs ++ s_ ")") ++ w') = s_ "(" ++ join_refs refs ++ s_ ")").
  { apply strip_trimmed; try assumption. split; [reflexivity|]. change (s_ ")") with [")"%char]. rewrite app_assoc, last_last. reflexivity. }
  assert (E : exists x, git_versions_from_keywords k (s_ "v") = Done x /\ (i_error x = None -> i_date x = Some (day ++ s_ "T" ++ time ++ zone))).
  { unfold git_versions_from_keywords, k. cbn [k_refnames k_full k_date]. rewrite Ed. cbn [obind]. rewrite Rp.
    replace (startswith (s_ "$Format") (s_ "(" ++ join_refs refs ++ s_ ")")) with false by reflexivity. cbn [obind].
    destruct (find _ _); eexists; (split; [reflexivity|]); cbn; intros H; [reflexivity|discriminate H]. }
  destruct E as (x & E & Hx). rewrite E. cbn [orelse]. intros H. injection H as <-. exact Hx.
Qed.
(** a release is preferred to its release candidates *)
Theorem C117_candidate : forall refs w w' full date file git, refs <> [] -> Forall ref_ok refs -> forallb is_space w = true -> forallb is_space w' = true -> date <> [] ->
  forall v suffix, suffix <> [] -> release refs v -> exists i, get_versions {| k_refnames := Some (w ++ (s_ "(" ++ join_refs refs ++ s_ ")") ++ w'); k_full := Some full; k_date := Some date |} file git = Done i /\
    version i <> v ++ suffix.
Proof.
  intros refs w w' full date file git Hn F Hw Hw' Hd v suffix Hs Hv.
  destruct (C117_archive refs w w' full date file git Hn F Hw Hw' Hd) as (i & E & _ & _ & [(_ & _ & L)|(_ & _ & L)]); [|destruct (L v Hv)].
  exists i. split; [exact E|]. intros Q. destruct suffix as [|c s]; [congruence|]. destruct (L v Hv) as [Ev|B].
  - rewrite Q in Ev. apply (f_equal (@length ascii)) in Ev. rewrite app_length in Ev. cbn in Ev. lia.
  - rewrite Q in B. exact (before_irrefl v (before_trans _ _ _ (before_prefix v c s) B)).
Qed.
(** but not the newest release: of the tags 1.2 and 1.3 on one commit the older one is taken *)
Theorem C117_newest_refuted : exists i, get_versions {| k_refnames := Some (s_ "(tag: v1.3, tag: v1.2)"); k_full := Some (s_ "d3ce328"); k_date := Some (s_ "2026-11-17") |} None (fun _ _ => NoSuchFile) = Done i /\
  version i = s_ "1.2".
Proof. eexists. split; vm_compute; reflexivity. Qed.
Example C117_case : exists i, get_versions {| k_refnames := Some (s_ " (HEAD -> main, tag: v1.3rc1, tag: v1.3, tag: nightly)"); k_full := Some (s_ "d3ce328"); k_date := Some (s_ "2026-11-17 07:55:00 +0000") |} None (fun _ _ => NoSuchFile) = Done i /\
  version i = s_ "1.3" /\ i_date i = Some (s_ "2026-11-17T07:55:00+0000").
Proof. eexists. split; [vm_compute; reflexivity|]. split; vm_compute; reflexivity. Qed.

(** ** C118: importing the package *)
Definition rev_list_command : list string := ["rev-list"; "HEAD"; "--left-right"]%string.
Definition show_command : list string := ["show"; "-s"; "--format=%ci"; "HEAD"]%string.
Lemma runner_done g args : (forall e, g args <> Crashed e) -> exists a b, runner g args = Done (a, b).
Proof.
  intros H. unfold runner, run_command. destruct (g args) as [| |out rc|e]; [eexists; eexists; reflexivity..| |destruct (H e eq_refl)].
  destruct (rc =? 0)%Z; eexists; eexists; reflexivity.
Qed.
Theorem C118_returns : forall file git, let g := git (dirname (dirname file)) in
  (forall args e, g args <> Crashed e) ->
  (exists out, g (map s_ rev_list_command) = Finished out 0) ->
  (exists out, g (map s_ show_command) = Finished out 0 /\ exists c, In c out /\ is_space c = false) ->
  exists i, get_versions checkout_keywords (Some file) git = Done i.
Proof.
  intros file git g Hc [rl Erl] (sh & Esh & c & Ic & Hsh). unfold get_versions.
  replace (git_versions_from_keywords checkout_keywords (s_ "v")) with (@NotThisMethod info) by (vm_compute; reflexivity). cbn [orelse]. fold g.
  assert (Fall : exists i, orelse (versions_from_parentdir (s_ "None") (dirname (dirname file))) (Done (unknown "unable to compute version")) = Done i).
  { unfold versions_from_parentdir. cbn [from_parentdir]. repeat (match goal with |- context [if ?b then _ else _] => destruct b end; [eexists; reflexivity|]). eexists. reflexivity. }
  assert (Date : exists d, commit_date g = Done d).
  { unfold commit_date. change [s_ "show"; s_ "-s"; s_ "--format=%ci"; s_ "HEAD"] with (map s_ show_command). unfold runner, run_command. rewrite Esh. cbn [Z.eqb obind].
    apply iso_date_done. intros E0. assert (I : In c (strip (strip_bytes sh))) by (apply strip_of_keeps; [apply strip_of_keeps; [exact Ic|apply byte_space, Hsh]|exact Hsh]).
    rewrite E0 in I. destruct I. }
  destruct Date as [d Ed].
  assert (G : (exists r, git_pieces_from_vcs g (s_ "v") = Done r) \/ git_pieces_from_vcs g (s_ "v") = NotThisMethod).
  { unfold git_pieces_from_vcs. destruct (runner_done g [s_ "rev-parse"; s_ "--git-dir"] (Hc _)) as (a1 & b1 & ->). cbn [obind].
    destruct (rc_ok b1); [|right; reflexivity]. cbn [negb].
    destruct (runner_done g (describe_args (s_ "v")) (Hc _)) as (a2 & b2 & ->). cbn [obind]. destruct a2 as [desc|]; [|right; reflexivity].
    destruct (runner_done g [s_ "rev-parse"; s_ "HEAD"] (Hc _)) as (a3 & b3 & ->). cbn [obind]. destruct a3 as [full|]; [|right; reflexivity].
    assert (B : (exists b, find_branch g = Done b) \/ find_branch g = NotThisMethod).
    { unfold find_branch. destruct (runner_done g [s_ "rev-parse"; s_ "--abbrev-ref"; s_ "HEAD"] (Hc _)) as (a4 & b4 & ->). cbn [obind]. destruct a4 as [b|]; [|right; reflexivity].
      destruct (rc_ok b4); [|right; reflexivity]. cbn [negb]. destruct (eqb_str (strip b) (s_ "HEAD")); [|left; eexists; reflexivity].
      destruct (runner_done g [s_ "branch"; s_ "--contains"] (Hc _)) as (a5 & b5 & ->). cbn [obind]. destruct a5 as [bs|]; [|right; reflexivity].
      destruct (rc_ok b5); [|right; reflexivity]. cbn [negb]. left.
      match goal with |- context [existsb ?f ?l] => destruct (existsb f l) end; [eexists; reflexivity|].
      match goal with |- context [match ?l with [] => _ | _ => _ end] => destruct l end; eexists; reflexivity. }
    destruct B as [[b ->]| ->]; [|right; reflexivity]. cbn [obind].
    set (D := if endswith (s_ "-dirty") (strip desc) then _ else _). clearbody D. left.
    destruct (contains_char "-" D).
    - destruct (parse_describe D) as [[[t n] h]|]; [|eexists; reflexivity]. destruct (negb (startswith (s_ "v") t)); [eexists; reflexivity|]. rewrite Ed. eexists. reflexivity.
    - change [s_ "rev-list"; s_ "HEAD"; s_ "--left-right"] with (map s_ rev_list_command). unfold runner, run_command. rewrite Erl. cbn [Z.eqb obind]. rewrite Ed. eexists. reflexivity. }
  destruct G as [[r ->]| ->]; [|exact Fall]. cbn [obind]. unfold render. destruct r as [l e|p]; [eexists; reflexivity|].
  replace (eqb_str (s_ "pep440") [] || eqb_str (s_ "pep440") (s_ "default")) with false by (vm_compute; reflexivity). cbv zeta.
  replace (eqb_str (s_ "pep440") (s_ "pep440")) with true by (vm_compute; reflexivity). eexists. reflexivity.
Qed.

(** where git is missing or the sources are not in a repository, the name of one of three directories counts, if it starts with None
    (the value None of a setting, read as a string); otherwise the version is unknown *)
Definition no_repository (g : list str -> started) : Prop :=
  forall out, g (map s_ ["rev-parse"; "--git-dir"]%string) <> Finished out 0.
Theorem C118_no_repository : forall file git, let root := dirname (dirname file) in
  no_repository (git root) -> (forall args e, git root args <> Crashed e) ->
  exists i, get_versions checkout_keywords (Some file) git = Done i /\
    ((exists k, (k < 3)%nat /\ basename (Nat.iter k dirname root) = s_ "None" ++ version i /\ i_error i = None /\
        forall j, (j < k)%nat -> startswith (s_ "None") (basename (Nat.iter j dirname root)) = false) \/
     (version i = s_ "0+unknown" /\ i_error i <> None /\ forall k, (k < 3)%nat -> startswith (s_ "None") (basename (Nat.iter k dirname root)) = false)).
Proof.
  intros file git root Hn Hc. unfold get_versions.
  replace (git_versions_from_keywords checkout_keywords (s_ "v")) with (@NotThisMethod info) by (vm_compute; reflexivity). cbn [orelse]. fold root.
  assert (P : git_pieces_from_vcs (git root) (s_ "v") = NotThisMethod).
  { unfold git_pieces_from_vcs. specialize (Hn). unfold no_repository in Hn. change (map s_ ["rev-parse"; "--git-dir"]%string) with [s_ "rev-parse"; s_ "--git-dir"] in Hn.
    unfold runner at 1, run_command. destruct (git root [s_ "rev-parse"; s_ "--git-dir"]) as [| |out rc|e] eqn:E; cbn [obind rc_ok negb]; [reflexivity..| |destruct (Hc _ _ E)].
    destruct (Z.eqb_spec rc 0) as [->|Hr]; [destruct (Hn out eq_refl)|]. cbn [obind rc_ok]. apply Z.eqb_neq in Hr. rewrite Hr. reflexivity. }
  rewrite P. cbn [obind orelse]. unfold versions_from_parentdir.
  assert (G : forall n k, (k + n = 3)%nat -> (forall j, (j < k)%nat -> startswith (s_ "None") (basename (Nat.iter j dirname root)) = false) ->
    exists i, orelse (from_parentdir n (s_ "None") (Nat.iter k dirname root)) (Done (unknown "unable to compute version")) = Done i /\
    ((exists k, (k < 3)%nat /\ basename (Nat.iter k dirname root) = s_ "None" ++ version i /\ i_error i = None /\
        forall j, (j < k)%nat -> startswith (s_ "None") (basename (Nat.iter j dirname root)) = false) \/
     (version i = s_ "0+unknown" /\ i_error i <> None /\ forall k, (k < 3)%nat -> startswith (s_ "None") (basename (Nat.iter k dirname root)) = false))).
  { induction n as [|n IH]; intros k Hk Hb.
    - cbn [from_parentdir orelse]. eexists. split; [reflexivity|]. right. split; [reflexivity|]. split; [discriminate|]. intros j Hj. apply Hb. lia.
    - cbn [from_parentdir]. destruct (startswith (s_ "None") (basename (Nat.iter k dirname root))) eqn:E.
      + cbn [orelse]. eexists. split; [reflexivity|]. left. exists k. split; [lia|]. cbn [version i_error]. split; [|split; [reflexivity|exact Hb]].
        apply startswith_spec in E as [t ->]. rewrite skipn_length_app. reflexivity.
      + apply (IH (S k)); [lia|]. intros j Hj. destruct (Nat.eq_dec j k) as [->|]; [exact E|apply Hb; lia]. }
  exact (G 3%nat 0%nat eq_refl ltac:(lia)).
Qed.
(** so does a failure of one of the commands whose answer is checked *)
Theorem C118_failure : forall file git, let root := dirname (dirname file) in
  (forall args e, git root args <> Crashed e) ->
  (exists command, In command [["rev-parse"; "--git-dir"]%string; describe_command; ["rev-parse"; "HEAD"]%string; ["rev-parse"; "--abbrev-ref"; "HEAD"]%string] /\
     forall out, git root (map s_ command) <> Finished out 0) ->
  exists i, get_versions checkout_keywords (Some file) git = Done i /\ full_revisionid i = None /\
    (version i = s_ "0+unknown" \/ exists k, (k < 3)%nat /\ basename (Nat.iter k dirname root) = s_ "None" ++ version i).
Proof.
  intros file git root Hc (command & Hin & Hf). unfold get_versions.
  replace (git_versions_from_keywords checkout_keywords (s_ "v")) with (@NotThisMethod info) by (vm_compute; reflexivity). cbn [orelse]. fold root.
  assert (Fl : forall args, (forall out, git root args <> Finished out 0) -> exists rc, runner (git root) args = Done (None, rc) /\ rc_ok rc = false).
  { clear - Hc. intros args H. unfold runner, run_command. destruct (git root args) as [| |out rc|e] eqn:E; [exists None; split; reflexivity..| |destruct (Hc _ _ E)].
    destruct (Z.eqb_spec rc 0) as [->|N]; [destruct (H out eq_refl)|]. exists (Some rc). split; [reflexivity|]. apply Z.eqb_neq in N. exact N. }
  assert (P : git_pieces_from_vcs (git root) (s_ "v") = NotThisMethod).
  { unfold git_pieces_from_vcs. change [s_ "rev-parse"; s_ "--git-dir"] with (map s_ ["rev-parse"; "--git-dir"]%string).
    change (describe_args (s_ "v")) with (map s_ describe_command). change [s_ "rev-parse"; s_ "HEAD"] with (map s_ ["rev-parse"; "HEAD"]%string).
    unfold find_branch. change [s_ "rev-parse"; s_ "--abbrev-ref"; s_ "HEAD"] with (map s_ ["rev-parse"; "--abbrev-ref"; "HEAD"]%string).
    destruct Hin as [<-|Hin]; [destruct (Fl _ Hf) as (rc & -> & R); cbn [obind]; rewrite R; reflexivity|].
    destruct (runner_done (git root) (map s_ ["rev-parse"; "--git-dir"]%string) (Hc _)) as (a1 & b1 & ->). cbn [obind]. destruct (rc_ok b1); [|reflexivity]. cbn [negb].
    destruct Hin as [<-|Hin]; [destruct (Fl _ Hf) as (rc & -> & R); reflexivity|].
    destruct (runner_done (git root) (map s_ describe_command) (Hc _)) as (a2 & b2 & ->). cbn [obind]. destruct a2 as [desc|]; [|reflexivity].
    destruct Hin as [<-|Hin]; [destruct (Fl _ Hf) as (rc & -> & R); reflexivity|].
    destruct (runner_done (git root) (map s_ ["rev-parse"; "HEAD"]%string) (Hc _)) as (a3 & b3 & ->). cbn [obind]. destruct a3 as [full|]; [|reflexivity].
    destruct Hin as [<-|[]]. destruct (Fl _ Hf) as (rc & -> & R). reflexivity. }
  rewrite P. cbn [obind orelse]. unfold versions_from_parentdir. cbn [from_parentdir].
  repeat (match goal with |- context [if startswith ?a (basename ?d) then _ else _] => destruct (startswith a (basename d)) eqn:?E end; cycle 1).
  - eexists. split; [reflexivity|]. split; [reflexivity|]. left. reflexivity.
  - eexists. split; [reflexivity|]. split; [reflexivity|]. right. exists 2%nat. split; [lia|]. cbn [Nat.iter nat_rect version]. apply startswith_spec in E1 as [t E1]. rewrite E1, skipn_length_app. reflexivity.
  - eexists. split; [reflexivity|]. split; [reflexivity|]. right. exists 1%nat. split; [lia|]. cbn [Nat.iter nat_rect version]. apply startswith_spec in E0 as [t E0]. rewrite E0, skipn_length_app. reflexivity.
  - eexists. split; [reflexivity|]. split; [reflexivity|]. right. exists 0%nat. split; [lia|]. cbn [Nat.iter nat_rect version]. apply startswith_spec in E as [t E]. rewrite E, skipn_length_app. reflexivity.
Qed.
(** git runs in the directory that contains the package *)
Lemma after_slash_spec d b : ~ In "/"%char b -> after_slash (d ++ "/"%char :: b) = (d ++ ["/"%char], b).
Proof.
  intros Hb. assert (N : forall b, ~ In "/"%char b -> after_slash b = ([], b)).
  { clear. induction b as [|c b IH]; intros H; [reflexivity|]. cbn [after_slash]. rewrite IH by (intros Q; apply H; right; exact Q).
    destruct (eqb_char_spec c "/") as [->|]; [exfalso; apply H; left; reflexivity|reflexivity]. }
  induction d as [|c d IH]; cbn [app after_slash]; [rewrite N by exact Hb; reflexivity|]. rewrite IH. destruct (d ++ ["/"%char]) eqn:E; [destruct d; discriminate|]. reflexivity.
Qed.
Lemma dirname_join d b : d <> [] -> last d dash <> "/"%char -> ~ In "/"%char b -> dirname (d ++ "/"%char :: b) = d.
Proof.
  intros Hn Hl Hb. unfold dirname. rewrite after_slash_spec by exact Hb. cbn [fst].
  destruct (exists_last Hn) as (u & c & ->). rewrite last_last in Hl.
  assert (F : forallb (eqb_char "/") ((u ++ [c]) ++ ["/"%char]) = false).
  { rewrite !forallb_app. cbn [forallb]. destruct (eqb_char_spec "/" c) as [<-|]; [congruence|]. rewrite !andb_false_r. reflexivity. }
  rewrite F. unfold rstrip. rewrite !rev_app_distr. cbn [rev app lstrip]. replace (eqb_char "/" "/") with true by (vm_compute; reflexivity). cbn [lstrip].
  destruct (eqb_char_spec "/" c) as [<-|]; [congruence|]. cbn [rev]. rewrite rev_involutive. reflexivity.
Qed.
Theorem C118_paths : forall root package name, root <> [] -> last root dash <> "/"%char -> package <> [] -> ~ In "/"%char package -> ~ In "/"%char name ->
  let file := root ++ "/"%char :: package ++ "/"%char :: name in
  dirname (dirname file) = root /\ basename file = name /\ basename (dirname file) = package.
Proof.
  intros root package name Hr Hl Hp Np Nn file.
  assert (D : dirname file = root ++ "/"%char :: package).
  { unfold file. replace (root ++ "/"%char :: package ++ "/"%char :: name) with ((root ++ "/"%char :: package) ++ "/"%char :: name) by (rewrite <- app_assoc; reflexivity).
    apply dirname_join; [destruct root; discriminate| |exact Nn]. destruct (exists_last Hp) as (u & c & ->).
    rewrite (app_comm_cons u [c]), app_assoc, last_last. intros ->. apply Np. apply in_or_app. right. left. reflexivity. }
  rewrite D. split; [apply dirname_join; assumption|]. split; [|unfold basename; rewrite after_slash_spec by exact Np; reflexivity].
  unfold file, basename. replace (root ++ "/"%char :: package ++ "/"%char :: name) with ((root ++ "/"%char :: package) ++ "/"%char :: name) by (rewrite <- app_assoc; reflexivity).
  rewrite after_slash_spec by exact Nn. reflexivity.
Qed.
Example C118_case : exists i, get_versions checkout_keywords (Some (s_ "/usr/lib/geotiepoints/version.py")) (fun _ _ => NoSuchFile) = Done i /\ version i = s_ "0+unknown".
Proof. eexists. split; vm_compute; reflexivity. Qed.
(** a failure of git after the first commands (killed, out of memory, a broken object) stops the import *)
Theorem C118_refuted : exists git, (forall root args e, git root args <> Crashed e) /\
  get_versions checkout_keywords (Some (s_ "/src/geotiepoints/version.py")) git = Raise AttributeError.
Proof.
  exists (fun _ args => if list_eq_dec (list_eq_dec ascii_dec) args (map s_ show_command) then Finished [] 128 else example_git "v1.7.0-17-gd3ce328" args).
  split; [|vm_compute; reflexivity]. intros _ args e. destruct (list_eq_dec (list_eq_dec ascii_dec) args (map s_ show_command)); [discriminate|]. unfold example_git.
  repeat match goal with |- context [if ?b then _ else _] => destruct b; [discriminate|] end. discriminate.
Qed.

(** ** C119: other styles *)
(** git-describe-long gives back what was parsed *)
Theorem C119_describe_long : forall p tag, p_tag p = Some tag -> tag <> [] -> ~ In newline tag -> p_short p <> [] -> Forall hexadecimal (p_short p) ->
  exists text, render_git_describe_long p = text ++ (if p_dirty p then s_ "-dirty" else []) /\
  exists num, parse_describe text = Some (tag, num, p_short p) /\ decimal (p_distance p) num.
Proof.
  intros p tag Et Hn Nn Hs Fs. exists (described tag (fmt_N (p_distance p)) (p_short p)). split.
  - unfold render_git_describe_long, tag_of, if_. rewrite Et. destruct tag as [|c t]; [congruence|]. reflexivity.
  - exists (fmt_N (p_distance p)). pose proof (fmt_decimal (p_distance p)) as D. split; [|exact D]. destruct D as (D1 & D2 & _).
    apply C114_parse. split; [left; reflexivity|]. repeat split; assumption.
Qed.
(** the branch: on none, master if it contains the commit, otherwise the first that does *)
Definition first_branch (names : list str) : option str := match names with [] => None | b :: _ => Some b end.
Theorem C119_branch : forall git,
  (forall b, b <> s_ "HEAD" -> trimmed b -> answers git ["rev-parse"; "--abbrev-ref"; "HEAD"]%string b -> find_branch git = Done (Some b)) /\
  (forall head names, answers git ["rev-parse"; "--abbrev-ref"; "HEAD"]%string (s_ "HEAD") ->
    trimmed head -> In "("%char head -> ~ In newline head -> Forall (fun b => b <> [] /\ trimmed b /\ ~ In newline b) names ->
    answers git ["branch"; "--contains"]%string (head ++ concat (map (fun b => newline :: s_ "  " ++ b) names)) ->
    (In (s_ "master") names -> find_branch git = Done (Some (s_ "master"))) /\
    (~ In (s_ "master") names -> find_branch git = Done (first_branch names))).
Proof.
  intros git. split.
  - intros b Hb T A. unfold find_branch. change [s_ "rev-parse"; s_ "--abbrev-ref"; s_ "HEAD"] with (map s_ ["rev-parse"; "--abbrev-ref"; "HEAD"]%string).
    rewrite (runner_answers git _ b T A). cbn [obind rc_ok Z.eqb negb]. rewrite strip_id by exact T. destruct (eqb_str_spec b (s_ "HEAD")); [contradiction|reflexivity].
  - intros head names A T Ip Nn Fn B.
    assert (Tr : trimmed (head ++ concat (map (fun b => newline :: s_ "  " ++ b) names))).
    { destruct T as [T1 T2]. split; [destruct head; [destruct Ip|exact T1]|].
      destruct names as [|b names] using rev_ind; [rewrite app_nil_r; exact T2|]. clear IHnames. rewrite map_app, concat_app. cbn [map concat]. rewrite app_nil_r.
      apply Forall_app in Fn as [_ Fn]. inversion Fn as [|? ? (N & [_ L] & _) _]; subst. destruct (exists_last N) as (u & c & ->). rewrite last_last in L.
      change (newline :: s_ "  " ++ u ++ [c]) with ((newline :: s_ "  ") ++ u ++ [c]). rewrite !app_assoc, last_last. exact L. }
    assert (Sp : split_char newline (head ++ concat (map (fun b => newline :: s_ "  " ++ b) names)) = head :: map (fun b => s_ "  " ++ b) names).
    { assert (G : forall names h, Forall (fun b => b <> [] /\ trimmed b /\ ~ In newline b) names -> ~ In newline h ->
        split_char newline (h ++ concat (map (fun b => newline :: s_ "  " ++ b) names)) = h :: map (fun b => s_ "  " ++ b) names).
      { clear. induction names as [|b names IH]; intros h F N.
        - cbn [map concat]. rewrite app_nil_r. apply split_char_one, N.
        - inversion F as [|? ? (H1 & H2 & H3) F']; subst. cbn [map concat].
          assert (Q : forall h r, ~ In newline h -> split_char newline (h ++ newline :: r) = h :: split_char newline r).
          { clear. induction h as [|c h IH]; intros r N; [reflexivity|]. cbn [app split_char]. destruct (eqb_char_spec newline c) as [<-|]; [exfalso; apply N; left; reflexivity|].
            rewrite IH; [reflexivity|]. intros I. apply N. right. exact I. }
          cbn [app]. rewrite Q by exact N. rewrite IH; [reflexivity|exact F'|]. intros I. apply in_app_or in I as [I|I]; [vm_compute in I; intuition discriminate|exact (H3 I)]. }
      apply G; assumption. }
    assert (P : contains_char "(" head = true) by (apply existsb_exists; exists "("%char; split; [exact Ip|vm_compute; reflexivity]).
    assert (TH : trimmed (s_ "HEAD")) by (split; reflexivity).
    assert (M : map (skipn 2) (map (fun b => s_ "  " ++ b) names) = names) by (clear; induction names as [|b l IH]; [reflexivity|]; cbn [map]; rewrite IH; reflexivity).
    assert (FB : find_branch git = if existsb (eqb_str (s_ "master")) names then Done (Some (s_ "master")) else match names with [] => Done None | l :: _ => Done (Some l) end).
    { unfold find_branch. change [s_ "rev-parse"; s_ "--abbrev-ref"; s_ "HEAD"] with (map s_ ["rev-parse"; "--abbrev-ref"; "HEAD"]%string).
      rewrite (runner_answers git _ _ TH A). cbn [obind rc_ok Z.eqb negb]. rewrite strip_id by exact TH. replace (eqb_str (s_ "HEAD") (s_ "HEAD")) with true by (vm_compute; reflexivity).
      change [s_ "branch"; s_ "--contains"] with (map s_ ["branch"; "--contains"]%string). rewrite (runner_answers git _ _ Tr B). cbn [obind rc_ok Z.eqb negb].
      rewrite Sp, P, M. reflexivity. }
    rewrite FB. split; intros H.
    + replace (existsb (eqb_str (s_ "master")) names) with true; [reflexivity|]. symmetry. apply existsb_exists. exists (s_ "master"). split; [exact H|vm_compute; reflexivity].
    + destruct (existsb (eqb_str (s_ "master")) names) eqn:E.
      * exfalso. apply existsb_exists in E as (x & I & E). destruct (eqb_str_spec (s_ "master") x) as [<-|]; [exact (H I)|discriminate E].
      * destruct names; reflexivity.
Qed.
Definition styles : list string := ["pep440"; "pep440-branch"; "pep440-pre"; "pep440-post"; "pep440-post-branch"; "pep440-old"; "git-describe"; "git-describe-long"; "default"; ""]%string.
(** every known style gives a version, except that pep440-pre wants a number after .post *)
Theorem C119_styles : forall p style, In style styles -> style <> "pep440-pre"%string ->
  exists i, render (Parsed p) (s_ style) = Ok i /\ i_dirty i = Some (p_dirty p) /\ full_revisionid i = Some (p_long p).
Proof.
  intros p style Hs Hp. cbn in Hs. unfold render. cbv zeta.
  repeat (destruct Hs as [<-|Hs]; [first [congruence|
    repeat match goal with |- context [eqb_str ?a ?b] => let v := eval vm_compute in (eqb_str a b) in change (eqb_str a b) with v; cbv iota; cbn [orb] end;
    cbn [bind]; eexists; split; [reflexivity|split; reflexivity]]|]). destruct Hs.
Qed.
(** what the documentation of the styles says: for a tag, and without one (except that pep440-post shows the hash there too).
    [num]: the distance, [away]: there are commits since the tag, [elsewhere]: not on master *)
Definition documented (tag num hex : str) (away dirty elsewhere : bool) : list (string * str * str) :=
  let opt (b : bool) (t : str) : str := if b then t else [] in
  let sep := if in_dec ascii_dec "+"%char tag then s_ "." else s_ "+" in
  let changed := if away then true else dirty in
  [("pep440"%string, tag ++ opt changed (sep ++ num ++ s_ ".g" ++ hex ++ opt dirty (s_ ".dirty")), s_ "0+untagged." ++ num ++ s_ ".g" ++ hex ++ opt dirty (s_ ".dirty"));
   ("pep440-branch"%string, tag ++ opt changed (opt elsewhere (s_ ".dev0") ++ sep ++ num ++ s_ ".g" ++ hex ++ opt dirty (s_ ".dirty")),
     s_ "0" ++ opt elsewhere (s_ ".dev0") ++ s_ "+untagged." ++ num ++ s_ ".g" ++ hex ++ opt dirty (s_ ".dirty"));
   ("pep440-post"%string, tag ++ opt changed (s_ ".post" ++ num ++ opt dirty (s_ ".dev0") ++ sep ++ s_ "g" ++ hex), s_ "0.post" ++ num ++ opt dirty (s_ ".dev0") ++ s_ "+g" ++ hex);
   ("pep440-post-branch"%string, tag ++ opt changed (s_ ".post" ++ num ++ opt elsewhere (s_ ".dev0") ++ sep ++ s_ "g" ++ hex ++ opt dirty (s_ ".dirty")),
     s_ "0.post" ++ num ++ opt elsewhere (s_ ".dev0") ++ s_ "+g" ++ hex ++ opt dirty (s_ ".dirty"));
   ("pep440-old"%string, tag ++ opt changed (s_ ".post" ++ num ++ opt dirty (s_ ".dev0")), s_ "0.post" ++ num ++ opt dirty (s_ ".dev0"));
   ("git-describe"%string, tag ++ opt away (s_ "-" ++ num ++ s_ "-g" ++ hex) ++ opt dirty (s_ "-dirty"), hex ++ opt dirty (s_ "-dirty"));
   ("git-describe-long"%string, tag ++ s_ "-" ++ num ++ s_ "-g" ++ hex ++ opt dirty (s_ "-dirty"), hex ++ opt dirty (s_ "-dirty"))].
Lemma plus_in tag : contains_char "+" tag = if in_dec ascii_dec "+"%char tag then true else false.
Proof.
  unfold contains_char. destruct (in_dec ascii_dec "+"%char tag) as [H|H].
  - apply existsb_exists. exists "+"%char. split; [exact H|vm_compute; reflexivity].
  - destruct (existsb (eqb_char "+") tag) eqn:E; [|reflexivity]. apply existsb_exists in E as (x & I & E). destruct (eqb_char_spec "+" x) as [<-|]; [contradiction|discriminate].
Qed.
Theorem C119_texts : forall p away elsewhere tag,
  (away = true <-> p_distance p <> 0%N) -> (elsewhere = false <-> p_branch p = Some (s_ "master")) ->
  exists num, decimal (p_distance p) num /\
  forall style tagged untagged, In (style, tagged, untagged) (documented tag num (p_short p) away (p_dirty p) elsewhere) ->
  (tag <> [] -> p_tag p = Some tag -> exists i, render (Parsed p) (s_ style) = Ok i /\ version i = tagged) /\
  (p_tag p = None -> exists i, render (Parsed p) (s_ style) = Ok i /\ version i = untagged).
Proof.
  intros p away elsewhere tag Ha He. exists (fmt_N (p_distance p)). split; [apply fmt_decimal|]. intros style tagged untagged HI.
  assert (Ea : negb (p_distance p =? 0)%N = away).
  { destruct (N.eqb_spec (p_distance p) 0) as [E|E]; destruct away; try reflexivity; exfalso.
    - apply Ha; [reflexivity|exact E].
    - apply Ha in E. discriminate E. }
  assert (Ee : not_master p = elsewhere).
  { unfold not_master. destruct (p_branch p) as [b|] eqn:Eb.
    - destruct (eqb_str_spec b (s_ "master")) as [->|N]; destruct elsewhere; try reflexivity; exfalso.
      + assert (X : true = false) by (apply He; reflexivity). discriminate X.
      + apply N. pose proof (proj1 He eq_refl) as X. congruence.
    - destruct elsewhere; [reflexivity|]. exfalso. pose proof (proj1 He eq_refl) as X. discriminate X. }
  assert (Eb : beyond p = if away then true else p_dirty p) by (unfold beyond; rewrite Ea; destruct away; reflexivity).
  unfold documented in HI. cbv zeta in HI. cbn [In] in HI.
  repeat (destruct HI as [HI|HI]; [injection HI as <- <- <-;
    (split; [intros Ht Et|intros Et]);
    unfold render; cbv zeta;
    repeat match goal with |- context [eqb_str ?a ?b] => let v := eval vm_compute in (eqb_str a b) in change (eqb_str a b) with v; cbv iota; cbn [orb] end;
    cbn [bind]; eexists; (split; [reflexivity|]); cbn [version];
    unfold render_pep440, render_pep440_branch, render_pep440_post, render_pep440_post_branch, render_pep440_old, render_git_describe, render_git_describe_long, tag_of, plus_or_dot, if_;
    rewrite Et, ?Eb, ?Ea, ?Ee;
    [destruct tag as [|c t]; [congruence|]; rewrite ?plus_in;
     destruct away, (p_dirty p), elsewhere, (in_dec ascii_dec "+"%char (c :: t)); rewrite ?app_nil_r, <- ?app_assoc; try reflexivity
    |destruct (p_dirty p), elsewhere; rewrite ?app_nil_r; try reflexivity]|]).
  all: try contradiction. all: cbn [app s_ list_ascii_of_string]; repeat (rewrite <- app_assoc; cbn [app]); reflexivity.
Qed.
Theorem C119_pre : forall p, (forall tag, p_tag p = Some tag -> ~ exists u v, tag = u ++ s_ ".post" ++ v) ->
  render_pep440_pre p = Ok (match p_tag p with
    | Some (c :: t) => (c :: t) ++ (if (p_distance p =? 0)%N then [] else s_ ".post0.dev" ++ fmt_N (p_distance p))
    | _ => s_ "0.post0.dev" ++ fmt_N (p_distance p) end).
Proof.
  intros p Hp. unfold render_pep440_pre, tag_of. destruct (p_tag p) as [[|c t]|]; [reflexivity| |reflexivity].
  destruct (p_distance p =? 0)%N; cbn [negb]; [rewrite app_nil_r; reflexivity|].
  assert (S : forall s acc, (forall u v, s <> u ++ s_ ".post" ++ v) -> split_on_from (s_ ".post") acc 0 s = [rev acc ++ s]).
  { clear. induction s as [|d s IH]; intros acc H; [cbn; rewrite app_nil_r; reflexivity|]. cbn [split_on_from].
    destruct (startswith (s_ ".post") (d :: s)) eqn:E; [apply startswith_spec in E as [v E]; destruct (H [] v E)|].
    rewrite IH; [cbn; rewrite <- app_assoc; reflexivity|]. intros u v Q. apply (H (d :: u) v). rewrite Q. reflexivity. }
  unfold pep440_split_post, split_on. rewrite S; [reflexivity|]. intros u v Q. apply (Hp (c :: t) eq_refl). exists u, v. exact Q.
Qed.
(** a post release counts up *)
Theorem C119_post : forall p base n num, p_tag p = Some (base ++ s_ ".post" ++ num) -> base <> [] -> ~ (exists u v, base = u ++ s_ ".post" ++ v) -> decimal n num -> p_distance p <> 0%N ->
  exists num' dist, decimal (n + 1) num' /\ decimal (p_distance p) dist /\ render_pep440_pre p = Ok (base ++ s_ ".post" ++ num' ++ s_ ".dev" ++ dist).
Proof.
  intros p base n num Et Hb Nb D Hd. exists (fmt_N (n + 1)), (fmt_N (p_distance p)). split; [apply fmt_decimal|]. split; [apply fmt_decimal|].
  unfold render_pep440_pre, tag_of. rewrite Et. destruct (base ++ s_ ".post" ++ num) as [|c t] eqn:E; [destruct base; discriminate|]. rewrite <- E.
  apply N.eqb_neq in Hd. rewrite Hd. cbn [negb]. destruct D as (D1 & D2 & D3 & D4).
  assert (NO : forall c s, digit c -> startswith (s_ ".post") (c :: s) = false).
  { clear. intros c s H. cbn [s_ list_ascii_of_string startswith]. destruct (eqb_char_spec "."%char c) as [<-|]; [destruct (dot_digit H)|reflexivity]. }
  assert (S2 : forall s acc, Forall digit s -> split_on_from (s_ ".post") acc 0 s = [rev acc ++ s]).
  { clear - NO. induction s as [|d s IH]; intros acc H; [cbn; rewrite app_nil_r; reflexivity|]. inversion H; subst. cbn [split_on_from].
    rewrite NO by assumption. rewrite IH by assumption. cbn. rewrite <- app_assoc. reflexivity. }
  assert (S1 : forall s acc, (forall u v, s <> u ++ s_ ".post" ++ v) -> split_on_from (s_ ".post") acc 0 (s ++ s_ ".post" ++ num) = [rev acc ++ s; num]).
  { clear - S2 D2. induction s as [|d s IH]; intros acc H.
    - rewrite app_nil_r. transitivity (rev acc :: split_on_from (s_ ".post") [] 0 num); [reflexivity|]. f_equal. exact (S2 num [] D2).
    - cbn [app split_on_from]. destruct (startswith (s_ ".post") (d :: s ++ s_ ".post" ++ num)) eqn:E.
      + exfalso. apply startswith_spec in E as [v E]. cbn [s_ list_ascii_of_string app] in E. injection E as -> E.
        (* the separator starts in s: it ends in s as well, for it has only one dot *)
        destruct s as [|s1 s]; cbn [app] in E; [injection E; intros; discriminate|]. injection E as -> E.
        destruct s as [|s1 s]; cbn [app] in E; [injection E; intros; discriminate|]. injection E as -> E.
        destruct s as [|s1 s]; cbn [app] in E; [injection E; intros; discriminate|]. injection E as -> E.
        destruct s as [|s1 s]; cbn [app] in E; [injection E; intros; discriminate|]. injection E as -> E.
        apply (H [] s). reflexivity.
      + rewrite IH; [cbn; rewrite <- app_assoc; reflexivity|]. intros u v Q. apply (H (d :: u) v). rewrite Q. reflexivity. }
  unfold pep440_split_post, split_on. rewrite S1; [|intros u v Q; apply Nb; exists u, v; exact Q]. cbn [rev app].
  assert (I : py_int num = Ok (Z.of_N n)).
  { unfold py_int. rewrite strip_id.
    2:{ split; apply hex_not_space; left; rewrite Forall_forall in D2; apply D2; [destruct num; [congruence|left; reflexivity]|].
        destruct (exists_last D1) as (u & x & ->). rewrite last_last. apply in_or_app. right. left. reflexivity. }
    assert (Fi : forall s, Forall digit s -> filter is_digit s = s) by (clear; intros s; induction 1 as [|c s Hc Hs IH]; [reflexivity|]; cbn; rewrite (proj2 (digit_spec c) Hc), IH; reflexivity).
    assert (GO : forall s, Forall digit s -> groups_ok true s = true) by (clear; intros s; induction 1 as [|c s Hc Hs IH]; [reflexivity|]; cbn; rewrite (proj2 (digit_spec c) Hc); exact IH).
    destruct num as [|c0 num]; [congruence|]. inversion D2 as [|? ? Hc0 Hnum]; subst.
    destruct (eqb_char_spec c0 "-") as [->|]; [destruct (dash_digit Hc0)|]. destruct (eqb_char_spec c0 "+") as [->|]; [destruct (plus_digit Hc0)|].
    cbn [groups_ok]. rewrite (proj2 (digit_spec c0) Hc0), GO by exact Hnum. rewrite Fi by exact D2. rewrite value_spec. reflexivity. }
  replace (match num with [] => Ok 0%Z | _ => py_int num end) with (@Ok Z (Z.of_N n)) by (destruct num; [congruence|symmetry; exact I]). cbn [bind].
  replace (fmt_Z (Z.of_N n + 1)) with (fmt_N (n + 1)); [reflexivity|]. unfold fmt_Z. destruct (Z.of_N n + 1)%Z eqn:Ez; [lia| |lia]. f_equal. lia.
Qed.
(** two post releases: everything after the first .post is dropped *)
Lemma split_post_first base rest acc : (forall u v, base <> u ++ s_ ".post" ++ v) ->
  split_on_from (s_ ".post") acc 0 (base ++ s_ ".post" ++ rest) = (rev acc ++ base) :: split_on (s_ ".post") rest.
Proof.
  revert acc. induction base as [|d s IH]; intros acc H; [rewrite app_nil_r; reflexivity|]. cbn [app split_on_from].
  destruct (startswith (s_ ".post") (d :: s ++ s_ ".post" ++ rest)) eqn:E.
  - exfalso. apply startswith_spec in E as [v E]. cbn [s_ list_ascii_of_string app] in E. injection E as -> E.
    do 4 (destruct s as [|s1 s]; cbn [app] in E; [injection E; intros; discriminate|]; injection E as -> E). apply (H [] s). reflexivity.
  - rewrite IH; [cbn; rewrite <- app_assoc; reflexivity|]. intros u v Q. apply (H (d :: u) v). rewrite Q. reflexivity.
Qed.
Theorem C119_several_posts : forall p base num rest, p_tag p = Some (base ++ s_ ".post" ++ num ++ s_ ".post" ++ rest) -> base <> [] ->
  ~ (exists u v, base = u ++ s_ ".post" ++ v) -> ~ (exists u v, num = u ++ s_ ".post" ++ v) -> p_distance p <> 0%N ->
  exists dist, decimal (p_distance p) dist /\ render_pep440_pre p = Ok (base ++ s_ ".post0.dev" ++ dist).
Proof.
  intros p base num rest Et Hb Nb Nn Hd. exists (fmt_N (p_distance p)). split; [apply fmt_decimal|].
  unfold render_pep440_pre, tag_of. rewrite Et. destruct (base ++ s_ ".post" ++ num ++ s_ ".post" ++ rest) as [|c t] eqn:E; [destruct base; discriminate|]. rewrite <- E.
  apply N.eqb_neq in Hd. rewrite Hd. cbn [negb]. unfold pep440_split_post, split_on at 1.
  rewrite split_post_first by (intros u v Q; apply Nb; exists u, v; exact Q). unfold split_on. rewrite split_post_first by (intros u v Q; apply Nn; exists u, v; exact Q).
  assert (L : split_on (s_ ".post") rest <> []).
  { assert (G : forall s k acc, split_on_from (s_ ".post") acc k s <> []); [|apply G]. clear. induction s as [|c r IH]; intros k acc; [discriminate|]. cbn [split_on_from].
    destruct k; [destruct (startswith (s_ ".post") (c :: r)); [discriminate|apply IH]|apply IH]. }
  destruct (split_on (s_ ".post") rest); [congruence|]. reflexivity.
Qed.
(** what int() reads: a sign, then digits in groups joined by single underscores, white space around *)
Fixpoint joined (gs : list str) : str := match gs with [] => [] | [g] => g | g :: gs' => g ++ "_"%char :: joined gs' end.
Inductive int_text : Z -> str -> Prop :=
| int_plain gs : gs <> [] -> Forall (fun g => g <> [] /\ Forall digit g) gs -> int_text (Z.of_N (digits_value (concat gs))) (joined gs)
| int_plus gs : gs <> [] -> Forall (fun g => g <> [] /\ Forall digit g) gs -> int_text (Z.of_N (digits_value (concat gs))) ("+"%char :: joined gs)
| int_minus gs : gs <> [] -> Forall (fun g => g <> [] /\ Forall digit g) gs -> int_text (- Z.of_N (digits_value (concat gs))) ("-"%char :: joined gs).
Lemma under_digit : ~ digit "_"%char.
Proof. unfold digit. cbn. lia. Qed.
Lemma groups_digits s r : Forall digit s -> s <> [] -> groups_ok true (s ++ r) = groups_ok true r /\ groups_ok false (s ++ r) = groups_ok true r.
Proof.
  intros F Hn. assert (G : groups_ok true (s ++ r) = groups_ok true r).
  { clear Hn. induction F as [|c s Hc F IH]; [reflexivity|]. cbn. rewrite (proj2 (digit_spec c) Hc). exact IH. }
  split; [exact G|]. destruct F as [|c s Hc F]; [congruence|]. cbn [app groups_ok] in G |- *. rewrite (proj2 (digit_spec c) Hc) in *. exact G.
Qed.
Lemma groups_joined gs : gs <> [] -> Forall (fun g => g <> [] /\ Forall digit g) gs -> groups_ok false (joined gs) = true /\ filter is_digit (joined gs) = concat gs.
Proof.
  assert (Fi : forall s, Forall digit s -> filter is_digit s = s) by (clear; intros s; induction 1 as [|c s Hc Hs IH]; [reflexivity|]; cbn; rewrite (proj2 (digit_spec c) Hc), IH; reflexivity).
  induction gs as [|g gs IH]; intros Hn F; [congruence|]. inversion F as [|? ? [Hg Fg] F']; subst. destruct gs as [|g' gs].
  - cbn [joined concat]. rewrite app_nil_r. split; [|apply Fi, Fg]. rewrite <- (app_nil_r g). rewrite (proj2 (groups_digits g [] Fg Hg)). reflexivity.
  - destruct (IH ltac:(discriminate) F') as [I1 I2]. change (joined (g :: g' :: gs)) with (g ++ "_"%char :: joined (g' :: gs)).
    split; [rewrite (proj2 (groups_digits g _ Fg Hg)); exact I1|]. rewrite filter_app, (Fi g Fg). change (concat (g :: g' :: gs)) with (g ++ concat (g' :: gs)). f_equal. exact I2.
Qed.
Lemma joined_groups s : groups_ok false s = true -> exists gs, gs <> [] /\ Forall (fun g => g <> [] /\ Forall digit g) gs /\ s = joined gs.
Proof.
  assert (G : forall s, (groups_ok true s = true -> exists g gs, Forall digit g /\ Forall (fun g => g <> [] /\ Forall digit g) gs /\ s = joined (g :: gs)) /\
    (groups_ok false s = true -> exists gs, gs <> [] /\ Forall (fun g => g <> [] /\ Forall digit g) gs /\ s = joined gs)); [|apply G].
  clear s. induction s as [|c s [IH1 IH2]].
  - split; [|discriminate]. intros _. exists [], []. repeat split; constructor.
  - cbn [groups_ok]. destruct (is_digit c) eqn:Ec.
    + apply digit_spec in Ec. split; intros H; apply IH1 in H as (g & gs & Fg & F & ->).
      * exists (c :: g), gs. split; [constructor; assumption|]. split; [exact F|]. destruct gs; reflexivity.
      * exists ((c :: g) :: gs). split; [discriminate|]. split; [constructor; [split; [discriminate|constructor; assumption]|exact F]|]. destruct gs; reflexivity.
    + split; intros H; apply andb_true_iff in H as [H1 H2]; apply andb_true_iff in H1 as [H1 H3]; [|discriminate H3]. destruct (eqb_char_spec c "_") as [->|]; [|discriminate H1].
      apply IH2 in H2 as (gs & Hn & F & ->). exists [], gs. split; [constructor|]. split; [exact F|]. destruct gs; [congruence|reflexivity].
Qed.
Lemma joined_head gs : gs <> [] -> Forall (fun g => g <> [] /\ Forall digit g) gs -> digit (hd dash (joined gs)) /\ digit (last (joined gs) dash).
Proof.
  induction gs as [|g gs IH]; intros Hn F; [congruence|]. inversion F as [|? ? [Hg Fg] F']; subst. destruct gs as [|g' gs].
  - cbn [joined]. rewrite Forall_forall in Fg. split; apply Fg; [destruct g; [congruence|left; reflexivity]|].
    destruct (exists_last Hg) as (u & x & ->). rewrite last_last. apply in_or_app. right. left. reflexivity.
  - destruct (IH ltac:(discriminate) F') as [I1 I2]. change (joined (g :: g' :: gs)) with (g ++ "_"%char :: joined (g' :: gs)). split.
    + destruct g; [congruence|]. inversion Fg; assumption.
    + destruct (joined (g' :: gs)) as [|x j] eqn:Ej; [cbn in I2; destruct (dash_digit I2)|]. destruct (exists_last (l := x :: j)) as (u & y & Ey); [discriminate|]. rewrite Ey in *.
      rewrite app_comm_cons, app_assoc, last_last. rewrite last_last in I2. exact I2.
Qed.
Lemma space_digit c : digit c -> is_space c = false.
Proof. intros H. apply hex_not_space. left. exact H. Qed.
Lemma int_text_trimmed z s : int_text z s -> trimmed s.
Proof.
  intros [gs Hn F|gs Hn F|gs Hn F]; destruct (joined_head gs Hn F) as [H1 H2]; (split; [cbn; try reflexivity; apply space_digit, H1|]).
  - apply space_digit, H2.
  - destruct (joined gs) eqn:E; [destruct (dash_digit H2)|]. apply space_digit. exact H2.
  - destruct (joined gs) eqn:E; [destruct (dash_digit H2)|]. apply space_digit. exact H2.
Qed.
Lemma py_int_spec s : (forall z, int_text z (strip s) -> py_int s = Ok z) /\ ((forall z, ~ int_text z (strip s)) -> py_int s = Err ValueError).
Proof.
  unfold py_int. split.
  - intros z H. destruct H as [gs Hn F|gs Hn F|gs Hn F]; destruct (groups_joined gs Hn F) as [G1 G2].
    + destruct (joined_head gs Hn F) as [J _]. destruct (joined gs) as [|c j] eqn:Ej; [destruct (dash_digit J)|]. cbn [hd] in J.
      destruct (eqb_char_spec c "-") as [->|]; [destruct (dash_digit J)|]. destruct (eqb_char_spec c "+") as [->|]; [destruct (plus_digit J)|].
      rewrite G1, G2, value_spec. reflexivity.
    + cbn. rewrite G1, G2, value_spec. reflexivity.
    + cbn. rewrite G1, G2, value_spec. reflexivity.
  - intros H. destruct (strip s) as [|c t]; [reflexivity|].
    destruct (eqb_char_spec c "-") as [->|N1]; [|destruct (eqb_char_spec c "+") as [->|N2]]; cbv beta iota.
    + destruct (groups_ok false t) eqn:E; [|reflexivity]. apply joined_groups in E as (gs & Hn & F & ->). exfalso. eapply H. apply int_minus; assumption.
    + destruct (groups_ok false t) eqn:E; [|reflexivity]. apply joined_groups in E as (gs & Hn & F & ->). exfalso. eapply H. apply int_plus; assumption.
    + destruct (groups_ok false (c :: t)) eqn:E; [|reflexivity]. apply joined_groups in E as (gs & Hn & F & E). exfalso. eapply H. rewrite E. apply int_plain; assumption.
Qed.
(** a number with its sign *)
Definition signed (z : Z) (s : str) : Prop := if (z <? 0)%Z then exists d, decimal (Z.to_N (- z)) d /\ s = "-"%char :: d else decimal (Z.to_N z) s.
Lemma fmt_signed z : signed z (fmt_Z z).
Proof.
  unfold signed, fmt_Z. destruct z as [|q|q]; cbn [Z.ltb Z.compare]; [apply fmt_decimal..|]. exists (fmt_N (N.pos q)). split; [apply fmt_decimal|reflexivity].
Qed.
Lemma split_post_none rest acc : (forall u v, rest <> u ++ s_ ".post" ++ v) -> split_on_from (s_ ".post") acc 0 rest = [rev acc ++ rest].
Proof.
  revert acc. induction rest as [|d s IH]; intros acc H; [cbn; rewrite app_nil_r; reflexivity|]. cbn [split_on_from].
  destruct (startswith (s_ ".post") (d :: s)) eqn:E; [apply startswith_spec in E as [v E]; destruct (H [] v E)|].
  rewrite IH; [cbn; rewrite <- app_assoc; reflexivity|]. intros u v Q. apply (H (d :: u) v). rewrite Q. reflexivity.
Qed.
(** whatever int() reads after .post is counted up; nothing there counts as 0; anything else raises *)
Theorem C119_number : forall p base num, p_tag p = Some (base ++ s_ ".post" ++ num) -> base <> [] ->
  ~ (exists u v, base = u ++ s_ ".post" ++ v) -> ~ (exists u v, num = u ++ s_ ".post" ++ v) -> p_distance p <> 0%N ->
  (forall w t w' z, num = w ++ t ++ w' -> forallb is_space w = true -> forallb is_space w' = true -> int_text z t ->
     exists n dist, signed (z + 1) n /\ decimal (p_distance p) dist /\ render_pep440_pre p = Ok (base ++ s_ ".post" ++ n ++ s_ ".dev" ++ dist)) /\
  (num = [] -> exists dist, decimal (p_distance p) dist /\ render_pep440_pre p = Ok (base ++ s_ ".post1.dev" ++ dist)) /\
  (num <> [] -> (forall z, ~ int_text z (strip num)) -> render_pep440_pre p = Err ValueError).
Proof.
  intros p base num Et Hb Nb Nn Hd.
  assert (E : render_pep440_pre p = bind (match num with [] => Ok 0%Z | _ => py_int num end) (fun n => Ok (base ++ s_ ".post" ++ fmt_Z (n + 1) ++ s_ ".dev" ++ fmt_N (p_distance p)))).
  { unfold render_pep440_pre, tag_of. rewrite Et. destruct (base ++ s_ ".post" ++ num) as [|c t] eqn:E; [destruct base; discriminate|]. rewrite <- E.
    apply N.eqb_neq in Hd. rewrite Hd. cbn [negb]. unfold pep440_split_post, split_on.
    rewrite split_post_first by (intros u v Q; apply Nb; exists u, v; exact Q). unfold split_on. rewrite split_post_none by (intros u v Q; apply Nn; exists u, v; exact Q). cbn [rev app].
    destruct (match num with [] => Ok 0%Z | _ => py_int num end); reflexivity. }
  split; [|split].
  - intros w t w' z En Hw Hw' Hz. exists (fmt_Z (z + 1)), (fmt_N (p_distance p)). split; [apply fmt_signed|]. split; [apply fmt_decimal|]. rewrite E.
    assert (S : strip num = t) by (rewrite En; apply strip_trimmed; try assumption; exact (int_text_trimmed z t Hz)).
    pose proof (proj1 (py_int_spec num) z ltac:(rewrite S; exact Hz)) as P. destruct num; [|rewrite P; reflexivity].
    cbn in P. discriminate P.
  - intros ->. exists (fmt_N (p_distance p)). split; [apply fmt_decimal|]. rewrite E. reflexivity.
  - intros Hn H. rewrite E, (proj2 (py_int_spec num) H). destruct num; [congruence|reflexivity].
Qed.
Example C119_number_case : int_text (-1250)%Z (s_ "-1_250") /\ ~ (exists z, int_text z (s_ "1__2")) /\
  render_pep440_pre {| p_long := []; p_short := s_ "ab"; p_branch := None; p_dirty := false; p_tag := Some (s_ "1.0.post-1_250"); p_distance := 12; p_date := [] |} = Ok (s_ "1.0.post-1249.dev12").
Proof.
  split; [|split].
  - apply (int_minus [s_ "1"; s_ "250"]); [discriminate|]. repeat (constructor; [split; [discriminate|repeat (constructor; [unfold digit; cbn; lia|]); constructor]|]). constructor.
  - intros (z & H). change (s_ "1__2") with (strip (s_ "1__2")) in H. apply py_int_spec in H. vm_compute in H. discriminate H.
  - vm_compute. reflexivity.
Qed.
(** something else than a number after .post *)
Theorem C119_pre_refuted : exists p, render (Parsed p) (s_ "pep440-pre") = Err ValueError.
Proof. exists {| p_long := []; p_short := s_ "ab"; p_branch := None; p_dirty := false; p_tag := Some (s_ "1.0.post1a"); p_distance := 1; p_date := [] |}. vm_compute. reflexivity. Qed.
Example C119_case : render_pep440_pre {| p_long := []; p_short := s_ "ab"; p_branch := None; p_dirty := false; p_tag := Some (s_ "1.0.post9"); p_distance := 12; p_date := [] |} = Ok (s_ "1.0.post10.dev12").
Proof. vm_compute. reflexivity. Qed.

Print Assumptions C114_parse.
Print Assumptions C115_version.
Print Assumptions C115_untagged.
Print Assumptions C115_signed.
Print Assumptions C115_date.
Print Assumptions C116_distinct.
Print Assumptions C116_local.
Print Assumptions C117_archive.
Print Assumptions C117_date.
Print Assumptions C117_candidate.
Print Assumptions C117_newest_refuted.
Print Assumptions C118_returns.
Print Assumptions C118_no_repository.
Print Assumptions C118_failure.
Print Assumptions C118_paths.
Print Assumptions C118_refuted.
Print Assumptions C119_describe_long.
Print Assumptions C119_branch.
Print Assumptions C119_styles.
Print Assumptions C119_texts.
Print Assumptions C119_pre.
Print Assumptions C119_post.
Print Assumptions C119_number.
Print Assumptions C119_several_posts.
Print Assumptions C119_pre_refuted.
