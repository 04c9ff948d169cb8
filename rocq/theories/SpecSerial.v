(** Specification of the file header, independent of the stream functions. *)
From Coq Require Import List ZArith Ascii String.
Import ListNotations.
Open Scope Z_scope.

(** space, \t, \n, \v, \f, \r *)
Definition blank (c : ascii) : Prop :=
  In c [" "%char; "009"%char; "010"%char; "011"%char; "012"%char; "013"%char].
Definition blanks (s : list ascii) : Prop := Forall blank s.
(** empty, or separated from what precedes by a blank *)
Definition separated_tail (s : list ascii) : Prop := s = [] \/ exists c t, s = c :: t /\ blank c.
(** the first three words of a line *)
Definition three_words (line a b c : list ascii) : Prop :=
  exists s1 s2 s3 s4, line = s1 ++ a ++ s2 ++ b ++ s3 ++ c ++ s4 /\
    blanks s1 /\ blanks s2 /\ s2 <> [] /\ blanks s3 /\ s3 <> [] /\ separated_tail s4.
(** [line] is the first line of [is] and [rest] what follows its line feed *)
Definition first_line (is line rest : list ascii) : Prop :=
  ~ In "010"%char line /\ (is = line ++ "010"%char :: rest \/ (is = line /\ rest = [] /\ is <> [])).
(** A header announcing an object of type [type] in binary ([b]) or text mode. *)
Definition good_header (type : string) (b : bool) (is rest : list ascii) : Prop :=
  exists line, first_line is line rest /\
    three_words line (list_ascii_of_string "LIBNURBS") (list_ascii_of_string (if b then "BIN" else "TXT")) (list_ascii_of_string type).
