(** Property theorems: binary files, headers and reloading (C57-C59, C62, C63). *)
From Coq Require Import List ZArith Lia Ascii String.
From Verif Require Import Outcome Num ModelCore ModelCurve ModelSurface ModelSerial SpecSerial ThSerialWit ThSerial2.
Import ListNotations.
Open Scope Z_scope.

(** * C57: bit for bit, whatever the receiver held and whatever follows in the stream. *)
Theorem C57_curve_binary_roundtrip : forall (c prior : curve dbl) rest,
  INT_MIN <= Degree c <= INT_MAX -> len (Knots c) <= INT_MAX -> len (ControlPoints c) <= INT_MAX ->
  Curve_LoadFromFile prior (Curve_SaveToFile c true ++ rest) = (c, Ok tt).
Proof. exact C57_thm. Qed.
Print Assumptions C57_curve_binary_roundtrip.
Example C57_ex : INT_MIN <= Degree curve_dbl <= INT_MAX /\ len (Knots curve_dbl) <= INT_MAX /\ len (ControlPoints curve_dbl) <= INT_MAX /\
  Curve_LoadFromFile line_dbl (Curve_SaveToFile curve_dbl true) = (curve_dbl, Ok tt).
Proof. repeat split; vm_compute; congruence. Qed.

(** * C58.  Full claim: for every surface reachable through the API, the default
    one included.  Holds when the grid has positive size. *)
Theorem C58_surface_binary_roundtrip_partial : forall s : surface dbl,
  INT_MIN <= DegreeU s <= INT_MAX -> INT_MIN <= DegreeV s <= INT_MAX -> len (KnotsU s) <= INT_MAX -> len (KnotsV s) <= INT_MAX ->
  0 < UCount (Net s) -> 0 < VCount (Net s) -> len (Values (Net s)) = UCount (Net s) * VCount (Net s) -> len (Values (Net s)) <= INT_MAX ->
  exists file, Surface_SaveToFile s true = Ok file /\ forall prior rest, Surface_LoadFromFile prior (file ++ rest) = (s, Ok tt).
Proof. exact C58_thm. Qed.
Print Assumptions C58_surface_binary_roundtrip_partial.
Example C58_ex : 0 < UCount (Net surface_dbl) /\ 0 < VCount (Net surface_dbl) /\ len (KnotsU surface_dbl) <= INT_MAX /\
  len (Values (Net surface_dbl)) = UCount (Net surface_dbl) * VCount (Net surface_dbl) /\ len (Values (Net surface_dbl)) <= INT_MAX.
Proof. repeat split; vm_compute; congruence. Qed.
(** The default-constructed surface is saved by reading past the end of its
    empty grid; a surface with a 0 x 0 grid is saved but cannot be loaded. *)
Theorem C58_default_refuted :
  Surface_SaveToFile (@Surface_default dbl) true = Undefined OutOfBounds /\
  (exists (s : surface dbl) file, Grid_make 0 0 (Vec4 (dbl_of_bits 0) (dbl_of_bits 0) (dbl_of_bits 0) (dbl_of_bits 0)) = Ok (Net s) /\
     Surface_SaveToFile s true = Ok file /\ forall prior, exists s', Surface_LoadFromFile prior file = (s', Throw RuntimeError)).
Proof. exact C58_refuted_lemma. Qed.
Print Assumptions C58_default_refuted.

(** * C59 *)
Theorem C59_truncated_curve_rejected : forall (c prior : curve dbl) n,
  INT_MIN <= Degree c <= INT_MAX -> len (Knots c) <= INT_MAX -> len (ControlPoints c) <= INT_MAX ->
  (n < List.length (Curve_SaveToFile c true))%nat ->
  exists c', Curve_LoadFromFile prior (firstn n (Curve_SaveToFile c true)) = (c', Throw RuntimeError).
Proof. exact C59_curve_thm. Qed.
Print Assumptions C59_truncated_curve_rejected.
Theorem C59_truncated_surface_rejected : forall (s : surface dbl) file n prior,
  INT_MIN <= DegreeU s <= INT_MAX -> INT_MIN <= DegreeV s <= INT_MAX -> len (KnotsU s) <= INT_MAX -> len (KnotsV s) <= INT_MAX ->
  0 < UCount (Net s) -> 0 < VCount (Net s) -> len (Values (Net s)) = UCount (Net s) * VCount (Net s) -> len (Values (Net s)) <= INT_MAX ->
  Surface_SaveToFile s true = Ok file -> (n < List.length file)%nat ->
  exists s', Surface_LoadFromFile prior (firstn n file) = (s', Throw RuntimeError).
Proof. exact C59_surface_thm. Qed.
Print Assumptions C59_truncated_surface_rejected.
Example C59_ex : (100 < List.length (Curve_SaveToFile curve_dbl true))%nat /\
  (exists file, Surface_SaveToFile surface_dbl true = Ok file /\ (200 < List.length file)%nat).
Proof. split; [vm_compute; lia|]. eexists. split; [vm_compute; reflexivity|]. vm_compute. lia. Qed.

(** * C62.  Full claim: the result of a successful load does not depend on the
    previous content.  True of binary files ... *)
Theorem C62_binary_replaces : 
  (forall (c1 c2 c' : curve dbl) is rest, good_header "CURVE" true is rest ->
     Curve_LoadFromFile c1 is = (c', Ok tt) -> Curve_LoadFromFile c2 is = (c', Ok tt)) /\
  (forall (s1 s2 s' : surface dbl) is rest, good_header "SURFACE" true is rest ->
     Surface_LoadFromFile s1 is = (s', Ok tt) -> Surface_LoadFromFile s2 is = (s', Ok tt)).
Proof. exact (conj C62_bin_curve_lemma C62_bin_surface_lemma). Qed.
Print Assumptions C62_binary_replaces.
Example C62_ex : exists c', good_header "CURVE" true (Curve_SaveToFile curve_dbl true) (skipn 19 (Curve_SaveToFile curve_dbl true)) /\
  Curve_LoadFromFile line_dbl (Curve_SaveToFile curve_dbl true) = (c', Ok tt).
Proof. eexists. split; [apply (load_header_spec _ _ _ _ word_curve); vm_compute; reflexivity|vm_compute; reflexivity]. Qed.
(** ... but a text file, even one written by SaveToFile, adds its knots and
    curve points to what the object already holds. *)
Theorem C62_text_refuted :
  (exists (c1 c2 c1' c2' : curve dbl) is, Curve_LoadFromFile c1 is = (c1', Ok tt) /\ Curve_LoadFromFile c2 is = (c2', Ok tt) /\ c1' <> c2' /\
     is = Curve_SaveToFile c1' false) /\
  (exists (s1 s2 s1' s2' : surface dbl) is, Surface_LoadFromFile s1 is = (s1', Ok tt) /\ Surface_LoadFromFile s2 is = (s2', Ok tt) /\ s1' <> s2' /\
     Ok is = Surface_SaveToFile s1' false).
Proof. exact C62_refuted_lemma. Qed.
Print Assumptions C62_text_refuted.
(** What holds of every text stream: the outcome does not depend on the old
    lists, and the new knots (and curve points) are exactly appended. *)
Theorem C62_text_appends_partial :
  (forall (c : curve dbl) is rest, good_header "CURVE" false is rest ->
     let fresh := Curve (Degree c) [] [] in
     snd (Curve_LoadFromFile c is) = snd (Curve_LoadFromFile fresh is) /\
     Degree (fst (Curve_LoadFromFile c is)) = Degree (fst (Curve_LoadFromFile fresh is)) /\
     Knots (fst (Curve_LoadFromFile c is)) = Knots c ++ Knots (fst (Curve_LoadFromFile fresh is)) /\
     ControlPoints (fst (Curve_LoadFromFile c is)) = ControlPoints c ++ ControlPoints (fst (Curve_LoadFromFile fresh is))) /\
  (forall (s : surface dbl) is rest, good_header "SURFACE" false is rest ->
     let fresh := Surface (DegreeU s) (DegreeV s) [] [] (Net s) in
     snd (Surface_LoadFromFile s is) = snd (Surface_LoadFromFile fresh is) /\
     DegreeU (fst (Surface_LoadFromFile s is)) = DegreeU (fst (Surface_LoadFromFile fresh is)) /\
     DegreeV (fst (Surface_LoadFromFile s is)) = DegreeV (fst (Surface_LoadFromFile fresh is)) /\
     KnotsU (fst (Surface_LoadFromFile s is)) = KnotsU s ++ KnotsU (fst (Surface_LoadFromFile fresh is)) /\
     KnotsV (fst (Surface_LoadFromFile s is)) = KnotsV s ++ KnotsV (fst (Surface_LoadFromFile fresh is)) /\
     Net (fst (Surface_LoadFromFile s is)) = Net (fst (Surface_LoadFromFile fresh is))).
Proof. exact (conj C62_txt_curve_lemma C62_txt_surface_lemma). Qed.
Print Assumptions C62_text_appends_partial.

(** * C63.  [good_header] (SpecSerial) says what a header is. *)
Theorem C63_bad_header_rejected :
  (forall (c : curve dbl) is, (forall b rest, ~ good_header "CURVE" b is rest) -> Curve_LoadFromFile c is = (c, Throw RuntimeError)) /\
  (forall (s : surface dbl) is, (forall b rest, ~ good_header "SURFACE" b is rest) -> Surface_LoadFromFile s is = (s, Throw RuntimeError)).
Proof. exact (conj C63_curve_lemma C63_surface_lemma). Qed.
Print Assumptions C63_bad_header_rejected.
Theorem C63_types_exclusive : forall is,
  (forall b rest (s : surface dbl), good_header "CURVE" b is rest -> Surface_LoadFromFile s is = (s, Throw RuntimeError)) /\
  (forall b rest (c : curve dbl), good_header "SURFACE" b is rest -> Curve_LoadFromFile c is = (c, Throw RuntimeError)).
Proof. exact C63_exclusive_lemma. Qed.
Print Assumptions C63_types_exclusive.
Theorem C63_good_header_accepted : forall (c : curve dbl) (s : surface dbl) is rest,
  (good_header "CURVE" true is rest -> Curve_LoadFromFile c is = Curve_load_bin c rest) /\
  (good_header "CURVE" false is rest -> Curve_LoadFromFile c is = Curve_load_txt c rest) /\
  (good_header "SURFACE" true is rest -> Surface_LoadFromFile s is = Surface_load_bin s rest) /\
  (good_header "SURFACE" false is rest -> Surface_LoadFromFile s is = Surface_load_txt s rest).
Proof. exact C63_accept_lemma. Qed.
Print Assumptions C63_good_header_accepted.
Example C63_ex : (forall b rest, ~ good_header "CURVE" b (str "LIBNURBS BIN SURFACE") rest) /\
  (forall b rest, ~ good_header "CURVE" b (str "LIBNURBS XML CURVE") rest) /\
  (forall b rest, ~ good_header "CURVE" b (str "libnurbs BIN CURVE") rest) /\
  (forall b rest, ~ good_header "SURFACE" b [] rest) /\
  good_header "SURFACE" false (str "LIBNURBS TXT SURFACE") [].
Proof. exact C63_ex_lemma. Qed.
