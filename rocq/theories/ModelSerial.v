(** Model of src/Utils/Serialization.cpp and of LoadFromFile / SaveToFile in
    src/Curve/Curve.cpp:19-280 and src/Surface/Surface.cpp:15-368.

    A stream is the list of its bytes.  A double is its 8-byte object
    representation (little endian, IEEE-754 binary64), an int its value.
    Memory is assumed sufficient for every [resize].
    The iostream number formatting/parsing (standard library, "C" locale) is
    modelled as: correctly rounded "%.17f" output; [num_get] grammar with
    correctly rounded conversion, failing on overflow, as in libstdc++. *)
From Coq Require Import List ZArith Bool Ascii String.
From Coq Require Import Floats.SpecFloat.
From Verif Require Import Outcome Num ModelCore ModelCurve ModelSurface.
Import ListNotations.
Open Scope Z_scope.
Notation length := List.length.

Definition bytes := list ascii.
Definition str (s : string) : bytes := list_ascii_of_string s.
Fixpoint bytes_eqb (a b : bytes) : bool :=
  match a, b with
  | [], [] => true
  | x :: a', y :: b' => Ascii.eqb x y && bytes_eqb a' b'
  | _, _ => false
  end.
Definition newline : ascii := "010"%char.

(** ** Object representations *)

(** A C++ double in memory: eight bytes, least significant first. *)
Record dbl := Dbl { byte0 : ascii; byte1 : ascii; byte2 : ascii; byte3 : ascii;
                    byte4 : ascii; byte5 : ascii; byte6 : ascii; byte7 : ascii }.
Definition dbl_bytes (d : dbl) : bytes :=
  [byte0 d; byte1 d; byte2 d; byte3 d; byte4 d; byte5 d; byte6 d; byte7 d].

Definition byte_of (z : Z) : ascii := ascii_of_N (Z.to_N (z mod 256)).
Definition Z_of_byte (b : ascii) : Z := Z.of_N (N_of_ascii b).
(** little-endian value of a byte list *)
Fixpoint le_Z (l : bytes) : Z :=
  match l with [] => 0 | b :: t => Z_of_byte b + 256 * le_Z t end.
Fixpoint le_bytes (n : nat) (z : Z) : bytes :=
  match n with O => [] | S n' => byte_of z :: le_bytes n' (z / 256) end.

(** 32-bit two's complement int *)
Definition int_bytes (z : Z) : bytes := le_bytes 4 (z mod 2 ^ 32).
Definition int_of_bytes (l : bytes) : Z :=
  let z := le_Z l in if z <? 2 ^ 31 then z else z - 2 ^ 32.

(** bit pattern <-> IEEE value *)
Definition dbl_bits (d : dbl) : Z := le_Z (dbl_bytes d).
Definition dbl_of_bits (z : Z) : dbl :=
  let b i := byte_of (z / 256 ^ i) in
  Dbl (b 0) (b 1) (b 2) (b 3) (b 4) (b 5) (b 6) (b 7).
Definition bits_value (z : Z) : b64 :=
  let s := negb (z <? 2 ^ 63) in
  let e := (z / 2 ^ 52) mod 2 ^ 11 in
  let m := z mod 2 ^ 52 in
  if e =? 0 then
    match m with Zpos p => S754_finite s p (-1074) | _ => S754_zero s end
  else if e =? 2047 then (if m =? 0 then S754_infinity s else S754_nan)
  else match m + 2 ^ 52 with Zpos p => S754_finite s p (e - 1075) | _ => S754_nan end.
Definition value_bits (f : b64) : Z :=
  let sgn (s : bool) := if s then 2 ^ 63 else 0 in
  match f with
  | S754_zero s => sgn s
  | S754_infinity s => sgn s + 2047 * 2 ^ 52
  | S754_nan => 2047 * 2 ^ 52 + 2 ^ 51
  | S754_finite s m e =>
      if Zpos m <? 2 ^ 52 then sgn s + Zpos m
      else sgn s + (e + 1075) * 2 ^ 52 + (Zpos m - 2 ^ 52)
  end.
Definition dbl_value (d : dbl) : b64 := bits_value (dbl_bits d).
Definition dbl_of_value (f : b64) : dbl := dbl_of_bits (value_bits f).

(** ** Input streams *)

(** [is.read(buf, n)]: [None] sets failbit. *)
Definition read_n (n : nat) (is : bytes) : option (bytes * bytes) :=
  if (n <=? length is)%nat then Some (firstn n is, skipn n is) else None.
Definition read_int (is : bytes) : option (Z * bytes) :=
  match read_n 4 is with Some (b, r) => Some (int_of_bytes b, r) | None => None end.
Definition dbl_of_list (l : bytes) : dbl :=
  let b i := nth i l "000"%char in
  Dbl (b 0%nat) (b 1%nat) (b 2%nat) (b 3%nat) (b 4%nat) (b 5%nat) (b 6%nat) (b 7%nat).
Definition read_dbl (is : bytes) : option (dbl * bytes) :=
  match read_n 8 is with Some (b, r) => Some (dbl_of_list b, r) | None => None end.
Fixpoint read_dbls (n : nat) (is : bytes) : option (list dbl * bytes) :=
  match n with
  | O => Some ([], is)
  | S n' =>
      match read_dbl is with
      | None => None
      | Some (d, is) =>
          match read_dbls n' is with Some (l, is) => Some (d :: l, is) | None => None end
      end
  end.

(** Serialization.cpp:7-21 [ReadKnotVectorFromStream] *)
Definition ReadKnotVector (is : bytes) : option (list dbl * bytes) :=
  match read_int is with
  | None => None
  | Some (count, is) => if count <? 0 then None else read_dbls (Z.to_nat count) is
  end.
(** Serialization.cpp:23-30 [ReadVec4FromStream] *)
Definition ReadVec4 (is : bytes) : option (vec4 dbl * bytes) :=
  match read_dbls 4 is with
  | Some ([a; b; c; d], is) => Some (Vec4 a b c d, is)
  | _ => None
  end.
(** Curve.cpp:83-86, Surface.cpp:88-91 *)
Fixpoint read_points (n : nat) (is : bytes) : option (list (vec4 dbl) * bytes) :=
  match n with
  | O => Some ([], is)
  | S n' =>
      match ReadVec4 is with
      | None => None
      | Some (p, is) =>
          match read_points n' is with Some (l, is) => Some (p :: l, is) | None => None end
      end
  end.

(** [std::getline(is, line)]: [None] when nothing can be extracted. *)
Fixpoint split_at (delim : ascii) (is : bytes) : bytes * bytes :=
  match is with
  | [] => ([], [])
  | c :: r => if Ascii.eqb c delim then ([], r) else let '(l, r') := split_at delim r in (c :: l, r')
  end.
Definition getline (delim : ascii) (is : bytes) : option (bytes * bytes) :=
  match is with [] => None | _ => Some (split_at delim is) end.
(** all the pieces successive [getline]s extract *)
Fixpoint getlines (fuel : nat) (delim : ascii) (is : bytes) : list bytes :=
  match fuel with
  | O => []
  | S f => match getline delim is with
           | None => []
           | Some (l, r) => l :: getlines f delim r
           end
  end.
Definition pieces (delim : ascii) (is : bytes) : list bytes := getlines (length is) delim is.

(** std::isspace in the "C" locale *)
Definition isspace (c : ascii) : bool :=
  let n := N_of_ascii c in ((n =? 32)%N || ((9 <=? n)%N && (n <=? 13)%N)).
Fixpoint drop_spaces (s : bytes) : bytes :=
  match s with c :: r => if isspace c then drop_spaces r else s | [] => [] end.
(** Serialization.cpp:67-80 [TrimString] *)
Definition TrimString (s : bytes) : bytes := rev (drop_spaces (rev (drop_spaces s))).

(** [ss >> word] on std::string *)
Fixpoint take_word (s : bytes) : bytes * bytes :=
  match s with
  | [] => ([], [])
  | c :: r => if isspace c then ([], s) else let '(w, r') := take_word r in (c :: w, r')
  end.
Definition read_word (s : bytes) : bytes * bytes := take_word (drop_spaces s).

(** ** Numbers in text *)
Definition isdigit (c : ascii) : bool := let n := N_of_ascii c in (48 <=? n)%N && (n <=? 57)%N.
Definition digit_value (c : ascii) : Z := Z_of_byte c - 48.
Definition digit_char (d : Z) : ascii := byte_of (d + 48).
Fixpoint take_digits (s : bytes) : bytes * bytes :=
  match s with
  | c :: r => if isdigit c then let '(d, r') := take_digits r in (c :: d, r') else ([], s)
  | [] => ([], [])
  end.
Definition digits_value (s : bytes) : Z := fold_left (fun a c => 10 * a + digit_value c) s 0.
Definition take_sign (s : bytes) : bool * bytes :=
  match s with
  | c :: r => if Ascii.eqb c "-" then (true, r) else if Ascii.eqb c "+" then (false, r) else (false, s)
  | [] => (false, [])
  end.

(** [ss >> int]: [None] sets failbit (no digits, or out of range). *)
Definition parse_int (s : bytes) : option (Z * bytes) :=
  let '(neg, s) := take_sign (drop_spaces s) in
  let '(d, r) := take_digits s in
  match d with
  | [] => None
  | _ => let z := if neg then - digits_value d else digits_value d in
         if fits_int z then Some (z, r) else None
  end.

(** correctly rounded binary64 of (-1)^s * m * 10^e *)
Definition b64_of_decimal (s : bool) (m : Z) (e : Z) : b64 :=
  match m with
  | Zpos p =>
      let num := match 10 ^ (Z.max e 0) with Zpos t => (p * t)%positive | _ => p end in
      let den := match 10 ^ (Z.max (- e) 0) with Zpos t => t | _ => 1%positive end in
      SFdiv 53 1024 (S754_finite s num 0) (S754_finite false den 0)
  | _ => S754_zero s
  end.

(** [ss >> double] *)
Definition parse_exponent (s : bytes) : option (Z * bytes) :=
  match s with
  | c :: r =>
      if Ascii.eqb c "e" || Ascii.eqb c "E" then
        let '(neg, r) := take_sign r in
        let '(d, r) := take_digits r in
        match d with [] => None | _ => Some (if neg then - digits_value d else digits_value d, r) end
      else Some (0, s)
  | [] => Some (0, s)
  end.
Definition take_fraction (s : bytes) : bytes * bytes :=
  match s with
  | c :: r => if Ascii.eqb c "." then take_digits r else ([], s)
  | [] => ([], [])
  end.
Definition is_inf (f : b64) : bool := match f with S754_infinity _ => true | _ => false end.
Definition parse_double (s : bytes) : option (b64 * bytes) :=
  let '(neg, s) := take_sign (drop_spaces s) in
  let '(ip, s) := take_digits s in
  let '(fp, s) := take_fraction s in
  match ip ++ fp with
  | [] => None
  | ds =>
      match parse_exponent s with
      | None => None
      | Some (ex, r) =>
          let f := b64_of_decimal neg (digits_value ds) (ex - len fp) in
          if is_inf f then None else Some (f, r)
      end
  end.
Definition parse_dbl (s : bytes) : option (dbl * bytes) :=
  match parse_double s with Some (f, r) => Some (dbl_of_value f, r) | None => None end.

(** decimal digits of a natural number, most significant first *)
Fixpoint dec_digits (fuel : nat) (n : Z) (acc : bytes) : bytes :=
  match fuel with
  | O => acc
  | S f => let acc := digit_char (n mod 10) :: acc in
           if n <? 10 then acc else dec_digits f (n / 10) acc
  end.
Definition print_nat (n : Z) : bytes := dec_digits (Z.to_nat (Z.log2 n + 2)) n [].
(** [os << int] *)
Definition print_int (z : Z) : bytes :=
  if z <? 0 then "-"%char :: print_nat (- z) else print_nat z.
(** exactly [k] digits *)
Fixpoint print_padded (k : nat) (n : Z) (acc : bytes) : bytes :=
  match k with O => acc | S k' => print_padded k' (n / 10) (digit_char (n mod 10) :: acc) end.

(** n/d rounded to the nearest integer, ties to even *)
Definition div_round_even (n d : Z) : Z :=
  let q := n / d in
  let r := n mod d in
  if 2 * r <? d then q
  else if d <? 2 * r then q + 1
  else if Z.even q then q else q + 1.
(** setprecision(digits10 + 2): 17 decimals (Curve.cpp:256, Surface.cpp:325) *)
Definition DECIMALS : Z := 17.
(** |x| * 10^17 rounded to an integer, for |x| = m * 2^e *)
Definition scaled_decimal (m : positive) (e : Z) : Z :=
  if 0 <=? e then Zpos m * 2 ^ e * 10 ^ DECIMALS
  else div_round_even (Zpos m * 10 ^ DECIMALS) (2 ^ (- e)).
Definition print_fixed (neg : bool) (n : Z) : bytes :=
  (if neg then ["-"%char] else [])
  ++ print_nat (n / 10 ^ DECIMALS) ++ ["."%char]
  ++ print_padded (Z.to_nat DECIMALS) (n mod 10 ^ DECIMALS) [].
(** [os << double] under std::fixed with 17 decimals.  Simplification: the sign
    of a NaN is not printed. *)
Definition print_value (f : b64) : bytes :=
  match f with
  | S754_zero s => print_fixed s 0
  | S754_finite s m e => print_fixed s (scaled_decimal m e)
  | S754_infinity s => (if s then ["-"%char] else []) ++ str "inf"
  | S754_nan => str "nan"
  end.
Definition print_dbl (d : dbl) : bytes := print_value (dbl_value d).

(** ** Saving *)

Definition MAGIC : bytes := str "LIBNURBS".
(** Curve.cpp:226, Surface.cpp:284 *)
Definition header (binary_mode : bool) (type : string) : bytes :=
  MAGIC ++ str " " ++ (if binary_mode then str "BIN" else str "TXT") ++ str " " ++ str type ++ [newline].

(** Serialization.cpp:42-56.  [static_cast<int>(size)]: sizes above INT_MAX wrap. *)
Definition wrap_int (z : Z) : Z := let m := z mod 2 ^ 32 in if m <? 2 ^ 31 then m else m - 2 ^ 32.
Definition WriteKnotVector (k : list dbl) : bytes :=
  int_bytes (wrap_int (len k)) ++ flat_map dbl_bytes k.
(** Serialization.cpp:58-65 *)
Definition WriteVec4 (p : vec4 dbl) : bytes :=
  dbl_bytes (x4 p) ++ dbl_bytes (y4 p) ++ dbl_bytes (z4 p) ++ dbl_bytes (w4 p).

(** Curve.cpp:259-266, Surface.cpp:329-348 *)
Fixpoint print_list (l : list dbl) : bytes :=
  match l with
  | [] => []
  | [x] => print_dbl x
  | x :: r => print_dbl x ++ str ", " ++ print_list r
  end.
(** Curve.cpp:272 / Surface.cpp:359 *)
Definition print_point (p : vec4 dbl) : bytes :=
  print_dbl (x4 p) ++ str " " ++ print_dbl (y4 p) ++ str " " ++ print_dbl (z4 p) ++ str " " ++ print_dbl (w4 p).

(** Curve.cpp:223-280 *)
Definition Curve_SaveToFile (c : curve dbl) (binary_mode : bool) : bytes :=
  header binary_mode "CURVE" ++
  if binary_mode then
    int_bytes (Degree c) ++ WriteKnotVector (Knots c)
    ++ int_bytes (wrap_int (len (ControlPoints c))) ++ flat_map WriteVec4 (ControlPoints c)
  else
    str "*Degree: " ++ print_int (Degree c) ++ [newline]
    ++ str "*Knots:" ++ [newline] ++ print_list (Knots c) ++ [newline]
    ++ str "*ControlPoints:" ++ [newline]
    ++ flat_map (fun p => print_point p ++ str "," ++ [newline]) (ControlPoints c).

(** Surface.cpp:281-368 *)
Definition Surface_SaveToFile (s : surface dbl) (binary_mode : bool) : outcome bytes :=
  let g := Net s in
  if binary_mode then
    cp_count <- int_ (UCount g * VCount g) ;;
    pts <- tabulate 0 cp_count (fun i => vget (Values g) i) ;;
    Ok (header true "SURFACE" ++ int_bytes (DegreeU s) ++ int_bytes (DegreeV s)
        ++ WriteKnotVector (KnotsU s) ++ WriteKnotVector (KnotsV s)
        ++ int_bytes (UCount g) ++ int_bytes (VCount g) ++ flat_map WriteVec4 pts)
  else
    rows <- tabulate 0 (VCount g) (fun v =>
              tabulate 0 (UCount g) (fun u => Grid_Get g u v)) ;;
    Ok (header false "SURFACE"
        ++ str "*DegreeU: " ++ print_int (DegreeU s) ++ [newline]
        ++ str "*DegreeV: " ++ print_int (DegreeV s) ++ [newline]
        ++ str "*KnotsU:" ++ [newline] ++ print_list (KnotsU s) ++ [newline]
        ++ str "*KnotsV:" ++ [newline] ++ print_list (KnotsV s) ++ [newline]
        ++ str "*ControlPoints:" ++ [newline]
        ++ print_int (UCount g) ++ str " " ++ print_int (VCount g) ++ [newline]
        ++ flat_map (fun p => print_point p ++ [newline]) (List.concat rows)).

(** ** Loading.
    A load is a function from the object before to the object after together
    with how the call ended.  Simplification: a field whose reading fails keeps
    its previous value (in C++ a short [read] may leave it partly overwritten,
    and a failed [>>] zeroes it); fields read before stay assigned. *)
Definition fail {A} (a : A) : A * outcome unit := (a, Throw RuntimeError).

(** Curve.cpp:66-88 *)
Definition Curve_load_bin (c : curve dbl) (is : bytes) : curve dbl * outcome unit :=
  match read_int is with
  | None => fail c
  | Some (d, is) =>
      let c := Curve d (Knots c) (ControlPoints c) in
      match ReadKnotVector is with
      | None => fail c
      | Some (k, is) =>
          let c := Curve (Degree c) k (ControlPoints c) in
          match read_int is with
          | None => fail c
          | Some (n, is) =>
              if n <? 0 then fail c else
              match read_points (Z.to_nat n) is with
              | None => fail c
              | Some (pts, _) => (Curve (Degree c) (Knots c) pts, Ok tt)
              end
          end
      end
  end.

(** Non-empty trimmed pieces between commas (Curve.cpp:114-119, 137-142). *)
Definition tokens (lines : list bytes) : list bytes :=
  filter (fun t => negb (bytes_eqb t []))
         (map TrimString (flat_map (fun l => pieces "," l) lines)).

(** [for (...) { parse; throw on failure; push_back }]: what has been pushed and
    whether all succeeded. *)
Fixpoint push_all {A} (parse : bytes -> option A) (toks : list bytes) : list A * bool :=
  match toks with
  | [] => ([], true)
  | t :: r => match parse t with
              | None => ([], false)
              | Some a => let '(l, ok) := push_all parse r in (a :: l, ok)
              end
  end.
Definition parse_knot (t : bytes) : option dbl :=
  match parse_dbl t with Some (d, _) => Some d | None => None end.
(** Serialization.cpp:32-40 [ReadVec4FromText] *)
Definition ReadVec4FromText (t : bytes) : option (vec4 dbl) :=
  match parse_dbl t with
  | None => None
  | Some (x, t) =>
      match parse_dbl t with
      | None => None
      | Some (y, t) =>
          match parse_dbl t with
          | None => None
          | Some (z, t) =>
              match parse_dbl t with None => None | Some (w, _) => Some (Vec4 x y z w) end
          end
      end
  end.
Definition done {A} (a : A) (ok : bool) : A * outcome unit := if ok then (a, Ok tt) else fail a.

(** Curve.cpp:95-155 [process_key] *)
Definition Curve_process_key (key : bytes) (lines : list bytes) (c : curve dbl)
  : curve dbl * outcome unit :=
  if bytes_eqb key (str "Degree") then
    match lines with
    | [l] => match parse_int l with
             | Some (d, _) => (Curve d (Knots c) (ControlPoints c), Ok tt)
             | None => fail c
             end
    | _ => fail c
    end
  else if bytes_eqb key (str "Knots") then
    let '(l, ok) := push_all parse_knot (tokens lines) in
    done (Curve (Degree c) (Knots c ++ l) (ControlPoints c)) ok
  else if bytes_eqb key (str "ControlPoints") then
    let '(l, ok) := push_all ReadVec4FromText (tokens lines) in
    done (Curve (Degree c) (Knots c) (ControlPoints c ++ l)) ok
  else fail c.

(** [line.front() == '*' && line.find(':') != npos] *)
Definition is_key_line (line : bytes) : bool :=
  match line with
  | c :: _ => Ascii.eqb c "*" && existsb (Ascii.eqb ":") line
  | [] => false
  end.
(** [line.substr(1, colon_pos - 1)] and [line.substr(colon_pos + 1)]; the line
    starts with '*', so the first ':' is not at position 0. *)
Definition split_key (line : bytes) : bytes * bytes :=
  match line with
  | _ :: r => let '(k, v) := split_at ":" r in (TrimString k, TrimString v)
  | [] => ([], [])
  end.

(** Curve.cpp:157-200 = Surface.cpp:214-255, for either [process_key]. *)
Section TextLoop.
  Context {Obj : Type} (process_key : bytes -> list bytes -> Obj -> Obj * outcome unit).
  Definition flush (key : bytes) (content : list bytes) (o : Obj) : Obj * outcome unit :=
    if bytes_eqb key [] then (o, Ok tt) else process_key key content o.
  Fixpoint text_loop (lines : list bytes) (key : bytes) (content : list bytes) (o : Obj)
    : Obj * outcome unit :=
    match lines with
    | [] => flush key content o
    | line :: rest =>
        let line := TrimString line in
        if bytes_eqb line [] then text_loop rest key content o
        else if is_key_line line then
          match flush key content o with
          | (o, Ok _) =>
              (* lines 166-170: [content_lines] is cleared only when a key was flushed *)
              let content := if bytes_eqb key [] then content else [] in
              let '(k, v) := split_key line in
              text_loop rest k (if bytes_eqb v [] then content else content ++ [v]) o
          | bad => bad
          end
        else if bytes_eqb key [] then fail o
        else text_loop rest key (content ++ [line]) o
    end.
End TextLoop.

Definition Curve_load_txt (c : curve dbl) (is : bytes) : curve dbl * outcome unit :=
  text_loop Curve_process_key (pieces newline is) [] [] c.

(** Curve.cpp:31-64 / Surface.cpp:27-60: the header; [Some b] is an accepted
    header with binary mode [b]. *)
Definition load_header (type : string) (is : bytes) : option (bool * bytes) :=
  match getline newline is with
  | None => None
  | Some (line, is) =>
      let '(magic, r) := read_word line in
      let '(mode, r) := read_word r in
      let '(ty, _) := read_word r in
      if negb (bytes_eqb magic MAGIC) then None
      else if bytes_eqb mode (str "TXT") then
        if bytes_eqb ty (str type) then Some (false, is) else None
      else if bytes_eqb mode (str "BIN") then
        if bytes_eqb ty (str type) then Some (true, is) else None
      else None
  end.

(** Curve.cpp:29-201 *)
Definition Curve_LoadFromFile (c : curve dbl) (is : bytes) : curve dbl * outcome unit :=
  match load_header "CURVE" is with
  | None => fail c
  | Some (true, is) => Curve_load_bin c is
  | Some (false, is) => Curve_load_txt c is
  end.

(** Surface.cpp:62-92 *)
Definition Surface_load_bin (s : surface dbl) (is : bytes) : surface dbl * outcome unit :=
  match read_int is with
  | None => fail s
  | Some (du, is) =>
      let s := Surface du (DegreeV s) (KnotsU s) (KnotsV s) (Net s) in
      match read_int is with
      | None => fail s
      | Some (dv, is) =>
          let s := Surface (DegreeU s) dv (KnotsU s) (KnotsV s) (Net s) in
          match ReadKnotVector is with
          | None => fail s
          | Some (ku, is) =>
              let s := Surface (DegreeU s) (DegreeV s) ku (KnotsV s) (Net s) in
              match ReadKnotVector is with
              | None => fail s
              | Some (kv, is) =>
                  let s := Surface (DegreeU s) (DegreeV s) (KnotsU s) kv (Net s) in
                  match read_int is with
                  | None => fail s
                  | Some (uc, is) =>
                      let s := Surface (DegreeU s) (DegreeV s) (KnotsU s) (KnotsV s)
                                       (Grid uc (VCount (Net s)) (Values (Net s))) in
                      match read_int is with
                      | None => fail s
                      | Some (vc, is) =>
                          let s := Surface (DegreeU s) (DegreeV s) (KnotsU s) (KnotsV s)
                                           (Grid uc vc (Values (Net s))) in
                          if (uc <=? 0) || (vc <=? 0) then fail s
                          else if negb (fits_int (uc * vc)) then (s, Undefined IntOverflow)
                          else
                            match read_points (Z.to_nat (uc * vc)) is with
                            | None => fail s
                            | Some (pts, _) =>
                                (Surface (DegreeU s) (DegreeV s) (KnotsU s) (KnotsV s)
                                         (Grid uc vc pts), Ok tt)
                            end
                      end
                  end
              end
          end
      end
  end.

Definition set_net (s : surface dbl) (g : grid (vec4 dbl)) : surface dbl :=
  Surface (DegreeU s) (DegreeV s) (KnotsU s) (KnotsV s) g.

(** Surface.cpp:100-212 [process_key].  Every content line is non-empty and
    trimmed, so the test at line 200 always succeeds. *)
Definition Surface_process_key (key : bytes) (lines : list bytes) (s : surface dbl)
  : surface dbl * outcome unit :=
  if bytes_eqb key (str "DegreeU") then
    match lines with
    | [l] => match parse_int l with
             | Some (d, _) => (Surface d (DegreeV s) (KnotsU s) (KnotsV s) (Net s), Ok tt)
             | None => fail s
             end
    | _ => fail s
    end
  else if bytes_eqb key (str "DegreeV") then
    match lines with
    | [l] => match parse_int l with
             | Some (d, _) => (Surface (DegreeU s) d (KnotsU s) (KnotsV s) (Net s), Ok tt)
             | None => fail s
             end
    | _ => fail s
    end
  else if bytes_eqb key (str "KnotsU") then
    let '(l, ok) := push_all parse_knot (tokens lines) in
    done (Surface (DegreeU s) (DegreeV s) (KnotsU s ++ l) (KnotsV s) (Net s)) ok
  else if bytes_eqb key (str "KnotsV") then
    let '(l, ok) := push_all parse_knot (tokens lines) in
    done (Surface (DegreeU s) (DegreeV s) (KnotsU s) (KnotsV s ++ l) (Net s)) ok
  else if bytes_eqb key (str "ControlPoints") then
    match lines with
    | [] => fail s
    | dims :: rest =>
        match parse_int dims with
        | None => fail s
        | Some (uc, r) =>
            let s := set_net s (Grid uc (VCount (Net s)) (Values (Net s))) in
            match parse_int r with
            | None => fail s
            | Some (vc, _) =>
                let s := set_net s (Grid uc vc (Values (Net s))) in
                if (uc <=? 0) || (vc <=? 0) then fail s
                else if negb (fits_int (uc * vc)) then (s, Undefined IntOverflow)
                else if negb (len rest =? uc * vc) then fail s
                else
                  let '(pts, ok) := push_all ReadVec4FromText rest in
                  (* on failure the values after the failing one are the resized old ones *)
                  done (set_net s (Grid uc vc (if ok then pts else Values (Net s)))) ok
            end
        end
    end
  else fail s.

Definition Surface_load_txt (s : surface dbl) (is : bytes) : surface dbl * outcome unit :=
  text_loop Surface_process_key (pieces newline is) [] [] s.

(** Surface.cpp:25-258 *)
Definition Surface_LoadFromFile (s : surface dbl) (is : bytes) : surface dbl * outcome unit :=
  match load_header "SURFACE" is with
  | None => fail s
  | Some (true, is) => Surface_load_bin s is
  | Some (false, is) => Surface_load_txt s is
  end.
