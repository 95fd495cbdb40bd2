(** Model of geotiepoints/version.py (computed when the package is imported: __init__.py:155-156).
    Simplifications: characters are those with code points 0-255; git, the environment and the file system are an
    arbitrary function from a command line to an outcome (no two command lines of the module are equal, so it may depend
    on time); int() has no limit on the number of digits; messages printed with verbose=True and the Windows branches are
    left out. git_get_keywords is in VersionFile.v. *)
From Coq Require Decimal.
From Coq Require Import Ascii String.
From Coq Require Import ZArith NArith List Bool.
From Verif Require Import Base.
Import ListNotations.
Open Scope list_scope.

(** ** Python strings *)
Definition str := list ascii.
Definition s_ (s : string) : str := list_ascii_of_string s.
Definition code (c : ascii) : N := N_of_ascii c.

Definition is_digit (c : ascii) : bool := (48 <=? code c)%N && (code c <=? 57)%N.
Definition is_hex (c : ascii) : bool := is_digit c || ((97 <=? code c)%N && (code c <=? 102)%N).
(** str.isspace *)
Definition is_space (c : ascii) : bool :=
  ((9 <=? code c)%N && (code c <=? 13)%N) || ((28 <=? code c)%N && (code c <=? 32)%N) || (code c =? 133)%N || (code c =? 160)%N.
(** line ends of str.splitlines *)
Definition is_eol (c : ascii) : bool :=
  ((10 <=? code c)%N && (code c <=? 13)%N) || ((28 <=? code c)%N && (code c <=? 30)%N) || (code c =? 133)%N.

Definition eqb_str (a b : str) : bool := if list_eq_dec ascii_dec a b then true else false.
Definition eqb_char (a b : ascii) : bool := if ascii_dec a b then true else false.

(** s.startswith(p), s[len(p):] for such an s *)
Fixpoint startswith (p s : str) : bool :=
  match p, s with
  | [], _ => true
  | a :: p', b :: s' => eqb_char a b && startswith p' s'
  | _, _ => false
  end.
Definition endswith (p s : str) : bool := startswith (rev p) (rev s).
Definition contains_char (c : ascii) (s : str) : bool := existsb (eqb_char c) s.

Fixpoint lstrip (p : ascii -> bool) (s : str) : str :=
  match s with c :: s' => if p c then lstrip p s' else s | [] => [] end.
Definition rstrip (p : ascii -> bool) (s : str) : str := rev (lstrip p (rev s)).
Definition strip_of (p : ascii -> bool) (s : str) : str := rstrip p (lstrip p s).
Definition strip : str -> str := strip_of is_space.
(** bytes.strip *)
Definition is_byte_space (c : ascii) : bool := ((9 <=? code c)%N && (code c <=? 13)%N) || (code c =? 32)%N.
Definition strip_bytes : str -> str := strip_of is_byte_space.

(** s.split(c) for one character *)
Fixpoint split_char (c : ascii) (s : str) : list str :=
  match s with
  | [] => [[]]
  | d :: s' =>
      if eqb_char c d then [] :: split_char c s'
      else match split_char c s' with w :: l => (d :: w) :: l | [] => [[d]] end
  end.
(** s.split(p) for a non-empty p: separators are searched from the left and do not overlap;
    [acc] = the present part (reversed), [skip] = characters of a separator still to be passed over *)
Fixpoint split_on_from (p : str) (acc : str) (skip : nat) (s : str) : list str :=
  match s with
  | [] => [rev acc]
  | d :: s' =>
      match skip with
      | S k => split_on_from p acc k s'
      | O => if startswith p s then rev acc :: split_on_from p [] (length p - 1) s' else split_on_from p (d :: acc) 0 s'
      end
  end.
Definition split_on (p s : str) : list str := split_on_from p [] 0 s.
(** s.split(): words between white space *)
Definition words (s : str) : list str :=
  filter (fun w => match w with [] => false | _ => true end)
         (fold_right (fun c l => if is_space c then [] :: l else match l with w :: l' => (c :: w) :: l' | [] => [[c]] end) [[]] s).
(** s.splitlines() *)
Fixpoint splitlines (s : str) : list str :=
  match s with
  | [] => []
  | c :: s' =>
      if is_eol c then
        match s' with
        | d :: s'' => if (code c =? 13)%N && (code d =? 10)%N then [] :: splitlines s'' else [] :: splitlines s'
        | [] => [[]]
        end
      else match s' with
           | [] => [[c]]
           | d :: _ => if is_eol d then match splitlines s' with _ :: l => [c] :: l | [] => [[c]] end
                       else match splitlines s' with w :: l => (c :: w) :: l | [] => [[c]] end
           end
  end.
(** s.replace(c, t, 1) *)
Fixpoint replace1 (c : ascii) (t s : str) : str :=
  match s with [] => [] | d :: s' => if eqb_char c d then t ++ s' else d :: replace1 c t s' end.

(** order of strings: by code points *)
Fixpoint ltb_str (a b : str) : bool :=
  match a, b with
  | [], [] => false
  | [], _ => true
  | _, [] => false
  | x :: a', y :: b' => (code x <? code y)%N || (eqb_char x y && ltb_str a' b')
  end.
Fixpoint insert (x : str) (l : list str) : list str :=
  match l with
  | [] => [x]
  | y :: l' => if ltb_str x y then x :: l else if eqb_str x y then l else y :: insert x l'
  end.
(** sorted(set(l)) *)
Definition sorted_set (l : list str) : list str := fold_right insert [] l.

(** ** Numbers *)
Fixpoint str_of_uint (d : Decimal.uint) : str :=
  match d with
  | Decimal.Nil => []
  | Decimal.D0 d => "0"%char :: str_of_uint d | Decimal.D1 d => "1"%char :: str_of_uint d | Decimal.D2 d => "2"%char :: str_of_uint d
  | Decimal.D3 d => "3"%char :: str_of_uint d | Decimal.D4 d => "4"%char :: str_of_uint d | Decimal.D5 d => "5"%char :: str_of_uint d
  | Decimal.D6 d => "6"%char :: str_of_uint d | Decimal.D7 d => "7"%char :: str_of_uint d | Decimal.D8 d => "8"%char :: str_of_uint d
  | Decimal.D9 d => "9"%char :: str_of_uint d
  end.
(** "%d" *)
Definition fmt_N (n : N) : str := str_of_uint (N.to_uint n).
Definition fmt_Z (z : Z) : str := match z with Zneg p => "-"%char :: fmt_N (Npos p) | _ => fmt_N (Z.to_N z) end.
(** value of a string of digits *)
Definition value (s : str) : N := fold_left (fun n c => (10 * n + (code c - 48))%N) s 0%N.
(** digits in groups separated by single underscores *)
Fixpoint groups_ok (prev_digit : bool) (s : str) : bool :=
  match s with
  | [] => prev_digit
  | c :: s' => if is_digit c then groups_ok true s' else eqb_char c "_" && prev_digit && groups_ok false s'
  end.
(** int(s) *)
Definition py_int (s : str) : res Z :=
  let s := strip s in
  let '(neg, body) := match s with c :: s' => if eqb_char c "-" then (true, s') else if eqb_char c "+" then (false, s') else (false, s) | [] => (false, s) end in
  if groups_ok false body then
    let v := Z.of_N (value (filter is_digit body)) in Ok (if neg then (- v)%Z else v)
  else Err ValueError.

(** ** os.path (POSIX) *)
(** characters after the last / and characters up to and including it *)
Fixpoint after_slash (s : str) : str * str :=
  match s with
  | [] => ([], [])
  | c :: s' => let '(head, tail) := after_slash s' in
               match head with
               | [] => if eqb_char c "/" then ([c], tail) else ([], c :: tail)
               | _ => (c :: head, tail)
               end
  end.
Definition basename (p : str) : str := snd (after_slash p).
Definition dirname (p : str) : str :=
  let head := fst (after_slash p) in
  if forallb (eqb_char "/") head then head else rstrip (eqb_char "/") head.

(** ** Outcomes: a value, the exception NotThisMethod, or another exception *)
Inductive out (A : Type) := Done (a : A) | NotThisMethod | Raise (e : exn).
Arguments Done {A}. Arguments NotThisMethod {A}. Arguments Raise {A}.
Definition obind {A B} (x : out A) (f : A -> out B) : out B :=
  match x with Done a => f a | NotThisMethod => NotThisMethod | Raise e => Raise e end.
Notation "'do' x <- e ; k" := (obind e (fun x => k)) (at level 200, x pattern, e at level 100, k at level 200, right associativity).
Definition of_res {A} (x : res A) : out A := match x with Ok a => Done a | Err e => Raise e end.

(** the dictionary returned by get_versions *)
Record info := { version : str; full_revisionid : option str; i_dirty : option bool; i_error : option str; i_date : option str }.

(** ** version.py:72-109 run_command: what starting each of the commands does; GITS has one element here *)
Inductive started := NoSuchFile | OtherOSError | Finished (stdout : str) (returncode : Z) | Crashed (e : exn).
Definition run_command (s : started) : out (option str * option Z) :=
  match s with
  | NoSuchFile | OtherOSError => Done (None, None)
  | Finished stdout rc => if (rc =? 0)%Z then Done (Some (strip_bytes stdout), Some rc) else Done (None, Some rc)
  | Crashed e => Raise e          (* e.g. output that is not UTF-8 *)
  end.

(** version.py:112-135 *)
Fixpoint from_parentdir (n : nat) (prefix root : str) : out info :=
  match n with
  | O => NotThisMethod
  | S n' =>
      let d := basename root in
      if startswith prefix d
      then Done {| version := skipn (length prefix) d; full_revisionid := None; i_dirty := Some false; i_error := None; i_date := None |}
      else from_parentdir n' prefix (dirname root)
  end.
Definition versions_from_parentdir (prefix root : str) : out info := from_parentdir 3 prefix root.

(** git_date edited into ISO 8601: date.splitlines()[-1].strip().replace(" ", "T", 1).replace(" ", "", 1) *)
Definition iso_date (date : str) : out str :=
  match rev (splitlines date) with
  | [] => Raise IndexError
  | line :: _ => Done (replace1 " " [] (replace1 " " (s_ "T") (strip line)))
  end.

(** the keywords refnames, full, date *)
Record keywords := { k_refnames : option str; k_full : option str; k_date : option str }.

(** version.py:187-210: the set of candidate tags *)
Definition candidate_tags (refnames : str) : list str :=
  let refs := map strip (split_char "," (strip_of (fun c => eqb_char c "(" || eqb_char c ")") refnames)) in
  let tags := map (skipn 5) (filter (startswith (s_ "tag: ")) refs) in
  match tags with
  | [] => filter (existsb is_digit) refs
  | _ => tags
  end.
(** version.py:213-221: does a tag qualify *)
Definition qualifies (tag_prefix ref : str) : bool :=
  startswith tag_prefix ref && match skipn (length tag_prefix) ref with c :: _ => is_digit c | [] => false end.

(** version.py:165-232 *)
Definition git_versions_from_keywords (k : keywords) (tag_prefix : str) : out info :=
  match k_refnames k with
  | None => NotThisMethod
  | Some refnames =>
      do date <- match k_date k with None => Done None | Some d => do d' <- iso_date d; Done (Some d') end;
      let refnames := strip refnames in
      if startswith (s_ "$Format") refnames then NotThisMethod
      else
        let full := match k_full k with None => Raise KeyError | Some f => Done (strip f) end in
        match find (qualifies tag_prefix) (sorted_set (candidate_tags refnames)) with
        | Some ref =>
            do f <- full;
            Done {| version := skipn (length tag_prefix) ref; full_revisionid := Some f; i_dirty := Some false; i_error := None; i_date := date |}
        | None =>
            do f <- full;
            Done {| version := s_ "0+unknown"; full_revisionid := Some f; i_dirty := Some false; i_error := Some (s_ "no suitable tags"); i_date := None |}
        end
  end.

(** ** version.py:232-354 git_pieces_from_vcs *)
Record pieces := { p_long : str; p_short : str; p_branch : option str; p_dirty : bool;
                   p_tag : option str; p_distance : N; p_date : str }.
(** [Broken]: pieces["error"] is set *)
Inductive parsed := Broken (long error : str) | Parsed (p : pieces).

(** last occurrence of a character: the parts before and after it *)
Fixpoint split_last (c : ascii) (s : str) : option (str * str) :=
  match s with
  | [] => None
  | d :: s' =>
      match split_last c s' with
      | Some (a, b) => Some (d :: a, b)
      | None => if eqb_char c d then Some ([], s') else None
      end
  end.
Definition newline : ascii := ascii_of_N 10.
(** re.search(r'^(.+)-(\d+)-g([0-9a-f]+)$', s): the three groups. The parts are found from the right; [$] also matches
    before a line feed at the end, [.] does not match a line feed. *)
Definition parse_describe (s : str) : option (str * str * str) :=
  match split_last "-" s with
  | None => None
  | Some (front, g_hex) =>
      match g_hex with
      | [] => None
      | g :: hex =>
          let hex := match rev hex with c :: r => if eqb_char c newline then rev r else hex | [] => hex end in
          if eqb_char g "g" && (0 <? length hex)%nat && forallb is_hex hex then
            match split_last "-" front with
            | None => None
            | Some (tag, num) =>
                if (0 <? length tag)%nat && negb (contains_char newline tag) && (0 <? length num)%nat && forallb is_digit num
                then Some (tag, num, hex) else None
            end
          else None
      end
  end.

Section Git.
(** git with the given arguments, run in the root directory *)
Variable git : list str -> started.
Definition runner (args : list str) : out (option str * option Z) := run_command (git args).
Definition rc_ok (rc : option Z) : bool := match rc with Some z => (z =? 0)%Z | None => false end.

(** the branch: 278-304 *)
Definition find_branch : out (option str) :=
  do (b, rc) <- runner [s_ "rev-parse"; s_ "--abbrev-ref"; s_ "HEAD"];
  match b with
  | Some b =>
      if negb (rc_ok rc) then NotThisMethod
      else
        let b := strip b in
        if eqb_str b (s_ "HEAD") then
          do (bs, rc) <- runner [s_ "branch"; s_ "--contains"];
          match bs with
          | Some bs =>
              if negb (rc_ok rc) then NotThisMethod
              else
                let branches := split_char newline bs in
                let branches := match branches with l :: l' => if contains_char "(" l then l' else branches | [] => [] end in
                let branches := map (skipn 2) branches in
                if existsb (eqb_str (s_ "master")) branches then Done (Some (s_ "master"))
                else match branches with [] => Done None | l :: _ => Done (Some l) end
          | None => NotThisMethod
          end
        else Done (Some b)
  | None => NotThisMethod
  end.

Definition describe_args (tag_prefix : str) : list str :=
  [s_ "describe"; s_ "--tags"; s_ "--dirty"; s_ "--always"; s_ "--long"; s_ "--match"; tag_prefix ++ s_ "[[:digit:]]*"].

(** 346-354: the date of the commit; .strip() of None raises AttributeError *)
Definition commit_date : out str :=
  do (d, _) <- runner [s_ "show"; s_ "-s"; s_ "--format=%ci"; s_ "HEAD"];
  match d with None => Raise AttributeError | Some d => iso_date (strip d) end.

Definition git_pieces_from_vcs (tag_prefix : str) : out parsed :=
  do (_, rc) <- runner [s_ "rev-parse"; s_ "--git-dir"];
  if negb (rc_ok rc) then NotThisMethod
  else
    do (describe_out, _) <- runner (describe_args tag_prefix);
    match describe_out with
    | None => NotThisMethod
    | Some describe_out =>
        let describe_out := strip describe_out in
        do (full_out, _) <- runner [s_ "rev-parse"; s_ "HEAD"];
        match full_out with
        | None => NotThisMethod
        | Some full_out =>
            let full_out := strip full_out in
            do branch <- find_branch;
            let dirty := endswith (s_ "-dirty") describe_out in
            let git_describe := if dirty then firstn (length describe_out - 6) describe_out else describe_out in
            if contains_char "-" git_describe then
              match parse_describe git_describe with
              | None => Done (Broken full_out (s_ "unable to parse git-describe output: '" ++ describe_out ++ s_ "'"))
              | Some (full_tag, num, hex) =>
                  if negb (startswith tag_prefix full_tag)
                  then Done (Broken full_out (s_ "tag '" ++ full_tag ++ s_ "' doesn't start with prefix '" ++ tag_prefix ++ s_ "'"))
                  else
                    do date <- commit_date;
                    Done (Parsed {| p_long := full_out; p_short := hex; p_branch := branch; p_dirty := dirty;
                                    p_tag := Some (skipn (length tag_prefix) full_tag); p_distance := value num; p_date := date |})
              end
            else
              do (out, _) <- runner [s_ "rev-list"; s_ "HEAD"; s_ "--left-right"];
              match out with
              | None => Raise AttributeError
              | Some out =>
                  do date <- commit_date;
                  Done (Parsed {| p_long := full_out; p_short := firstn 7 full_out; p_branch := branch; p_dirty := dirty;
                                  p_tag := None; p_distance := N.of_nat (length (words out)); p_date := date |})
              end
        end
    end.
End Git.

(** ** version.py:357-587: the styles *)
(** pieces["closest-tag"] is true: neither None nor empty *)
Definition tag_of (p : pieces) : option str := match p_tag p with Some (c :: t) => Some (c :: t) | _ => None end.
(** version.py:357-361, for a tag that is a string *)
Definition plus_or_dot (tag : str) : str := if contains_char "+" tag then s_ "." else s_ "+".
Definition if_ (b : bool) (s : string) : str := if b then s_ s else [].
Definition beyond (p : pieces) : bool := negb (p_distance p =? 0)%N || p_dirty p.
Definition not_master (p : pieces) : bool := match p_branch p with Some b => negb (eqb_str b (s_ "master")) | None => true end.

(** 364-387 *)
Definition render_pep440 (p : pieces) : str :=
  match tag_of p with
  | Some tag => if beyond p then tag ++ plus_or_dot tag ++ fmt_N (p_distance p) ++ s_ ".g" ++ p_short p ++ if_ (p_dirty p) ".dirty" else tag
  | None => s_ "0+untagged." ++ fmt_N (p_distance p) ++ s_ ".g" ++ p_short p ++ if_ (p_dirty p) ".dirty"
  end.
(** 390-417 *)
Definition render_pep440_branch (p : pieces) : str :=
  match tag_of p with
  | Some tag =>
      if beyond p
      then tag ++ if_ (not_master p) ".dev0" ++ plus_or_dot tag ++ fmt_N (p_distance p) ++ s_ ".g" ++ p_short p ++ if_ (p_dirty p) ".dirty"
      else tag
  | None => s_ "0" ++ if_ (not_master p) ".dev0" ++ s_ "+untagged." ++ fmt_N (p_distance p) ++ s_ ".g" ++ p_short p ++ if_ (p_dirty p) ".dirty"
  end.
(** 420-427 *)
Definition pep440_split_post (ver : str) : res (str * option Z) :=
  match split_on (s_ ".post") ver with
  | [a; b] => let* n := (match b with [] => Ok 0%Z | _ => py_int b end) in Ok (a, Some n)
  | a :: _ => Ok (a, None)
  | [] => Ok ([], None)
  end.
(** 430-452 *)
Definition render_pep440_pre (p : pieces) : res str :=
  match tag_of p with
  | Some tag =>
      if negb (p_distance p =? 0)%N then
        let* (tag_version, post_version) := pep440_split_post tag in
        Ok (match post_version with
            | Some n => tag_version ++ s_ ".post" ++ fmt_Z (n + 1) ++ s_ ".dev" ++ fmt_N (p_distance p)
            | None => tag_version ++ s_ ".post0.dev" ++ fmt_N (p_distance p)
            end)
      else Ok tag
  | None => Ok (s_ "0.post0.dev" ++ fmt_N (p_distance p))
  end.
(** 455-479 *)
Definition render_pep440_post (p : pieces) : str :=
  match tag_of p with
  | Some tag => if beyond p then tag ++ s_ ".post" ++ fmt_N (p_distance p) ++ if_ (p_dirty p) ".dev0" ++ plus_or_dot tag ++ s_ "g" ++ p_short p else tag
  | None => s_ "0.post" ++ fmt_N (p_distance p) ++ if_ (p_dirty p) ".dev0" ++ s_ "+g" ++ p_short p
  end.
(** 482-508 *)
Definition render_pep440_post_branch (p : pieces) : str :=
  match tag_of p with
  | Some tag =>
      if beyond p
      then tag ++ s_ ".post" ++ fmt_N (p_distance p) ++ if_ (not_master p) ".dev0" ++ plus_or_dot tag ++ s_ "g" ++ p_short p ++ if_ (p_dirty p) ".dirty"
      else tag
  | None => s_ "0.post" ++ fmt_N (p_distance p) ++ if_ (not_master p) ".dev0" ++ s_ "+g" ++ p_short p ++ if_ (p_dirty p) ".dirty"
  end.
(** 511-530 *)
Definition render_pep440_old (p : pieces) : str :=
  match tag_of p with
  | Some tag => if beyond p then tag ++ s_ ".post" ++ fmt_N (p_distance p) ++ if_ (p_dirty p) ".dev0" else tag
  | None => s_ "0.post" ++ fmt_N (p_distance p) ++ if_ (p_dirty p) ".dev0"
  end.
(** 533-550 *)
Definition render_git_describe (p : pieces) : str :=
  match tag_of p with
  | Some tag => tag ++ (if negb (p_distance p =? 0)%N then s_ "-" ++ fmt_N (p_distance p) ++ s_ "-g" ++ p_short p else [])
  | None => p_short p
  end ++ if_ (p_dirty p) "-dirty".
(** 553-570 *)
Definition render_git_describe_long (p : pieces) : str :=
  match tag_of p with
  | Some tag => tag ++ s_ "-" ++ fmt_N (p_distance p) ++ s_ "-g" ++ p_short p
  | None => p_short p
  end ++ if_ (p_dirty p) "-dirty".

(** 573-607; an empty style or None is the default *)
Definition render (r : parsed) (style : str) : res info :=
  match r with
  | Broken long error => Ok {| version := s_ "unknown"; full_revisionid := Some long; i_dirty := None; i_error := Some error; i_date := None |}
  | Parsed p =>
      let style := if eqb_str style [] || eqb_str style (s_ "default") then s_ "pep440" else style in
      let is_ s := eqb_str style (s_ s) in
      let* rendered :=
        (if is_ "pep440"%string then Ok (render_pep440 p)
        else if is_ "pep440-branch"%string then Ok (render_pep440_branch p)
        else if is_ "pep440-pre"%string then render_pep440_pre p
        else if is_ "pep440-post"%string then Ok (render_pep440_post p)
        else if is_ "pep440-post-branch"%string then Ok (render_pep440_post_branch p)
        else if is_ "pep440-old"%string then Ok (render_pep440_old p)
        else if is_ "git-describe"%string then Ok (render_git_describe p)
        else if is_ "git-describe-long"%string then Ok (render_git_describe_long p)
        else Err ValueError) in
      Ok {| version := rendered; full_revisionid := Some (p_long p); i_dirty := Some (p_dirty p); i_error := None; i_date := Some (p_date p) |}
  end.

(** ** version.py:610-657 get_versions; git runs in the directory it is given; [file] = os.path.realpath(__file__), None when __file__ is not defined *)
Definition unknown (error : string) : info :=
  {| version := s_ "0+unknown"; full_revisionid := None; i_dirty := None; i_error := Some (s_ error); i_date := None |}.
(** try: return e, except NotThisMethod: pass *)
Definition orelse {A} (e : out A) (k : out A) : out A := match e with NotThisMethod => k | _ => e end.

Definition get_versions (k : keywords) (file : option str) (git : str -> list str -> started) : out info :=
  orelse (git_versions_from_keywords k (s_ "v"))
    (match file with
     | None => Done (unknown "unable to find root of source tree")
     | Some file =>
         let root := dirname (dirname file) in
         orelse (do r <- git_pieces_from_vcs (git root) (s_ "v"); of_res (render r (s_ "pep440")))
           (orelse (versions_from_parentdir (s_ "None") root)
             (Done (unknown "unable to compute version")))
     end).
(** version.py:22-32: the keywords of a checkout, not expanded by git-archive *)
Definition checkout_keywords : keywords :=
  {| k_refnames := Some (s_ "$Format:%d$"); k_full := Some (s_ "$Format:%H$"); k_date := Some (s_ "$Format:%ci$") |}.
