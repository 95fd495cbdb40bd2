(** Model of git_get_keywords (geotiepoints/version.py:140-165): the keywords read from the text of a file. *)
From Coq Require Import Ascii String.
From Coq Require Import ZArith NArith List Bool.
From Verif Require Import Base Version.
Import ListNotations.
Open Scope list_scope.

Definition cr : ascii := ascii_of_N 13.
Definition dquote : ascii := ascii_of_N 34.

(** text files: the three kinds of line ends are read as a line feed *)
Fixpoint universal (s : str) : str :=
  match s with
  | [] => []
  | c :: s' =>
      if eqb_char c cr then
        newline :: match s' with d :: s'' => if eqb_char d newline then universal s'' else universal s' | [] => [] end
      else c :: universal s'
  end.
(** for line in fobj: the lines with their line feeds *)
Fixpoint lines_of (s : str) : list str :=
  match s with
  | [] => []
  | c :: s' => if eqb_char c newline then [c] :: lines_of s'
               else match lines_of s' with l :: ls => (c :: l) :: ls | [] => [[c]] end
  end.

(** characters matched by a dot *)
Fixpoint no_newline (s : str) : str :=
  match s with c :: s' => if eqb_char c newline then [] else c :: no_newline s' | [] => [] end.
(** re.search in a line for an equals sign, white space and a string in double quotes: the group of the first match is the string;
    it is the longest possible one *)
Fixpoint quoted (line : str) : option str :=
  match line with
  | [] => None
  | c :: s =>
      let here :=
        if eqb_char c "=" then
          match lstrip is_space s with
          | q :: body => if eqb_char q dquote then match split_last dquote (no_newline body) with Some (v, _) => Some v | None => None end else None
          | [] => None
          end
        else None in
      match here with Some v => Some v | None => quoted s end
  end.

(** version.py:150-162, one line *)
Definition scan_line (k : keywords) (line : str) : keywords :=
  let found name old := if startswith (s_ name) (strip line) then match quoted line with Some v => Some v | None => old end else old in
  {| k_refnames := found "git_refnames ="%string (k_refnames k); k_full := found "git_full ="%string (k_full k); k_date := found "git_date ="%string (k_date k) |}.

(** version.py:140-165; [None]: opening raises OSError. (If reading raises it later on, the text is what was read before.) *)
Definition git_get_keywords (text : option str) : keywords :=
  let empty := {| k_refnames := None; k_full := None; k_date := None |} in
  match text with
  | None => empty
  | Some s => fold_left scan_line (lines_of (universal s)) empty
  end.
