(** Statements and witnesses for serialization. *)
From Coq Require Import List ZArith Lia Bool Ascii String.
From Coq Require Import Floats.SpecFloat.
From Verif Require Import Outcome Num ModelCore ModelCurve ModelSurface ModelSerial SpecSerial ThOutcome ThSerial ThSerial2.
Import ListNotations.
Open Scope Z_scope.
Notation length := List.length.

Lemma fits_range z : INT_MIN <= z <= INT_MAX -> fits_int z = true.
Proof. intros H. unfold fits_int. apply andb_true_iff. rewrite !Z.leb_le. lia. Qed.
Lemma fits_len {A} (l : list A) : len l <= INT_MAX -> fits_int (len l) = true.
Proof. intros H. apply fits_range. pose proof (len_nonneg l). unfold INT_MIN. lia. Qed.
Lemma C57_thm (c prior : curve dbl) rest : INT_MIN <= Degree c <= INT_MAX -> len (Knots c) <= INT_MAX -> len (ControlPoints c) <= INT_MAX ->
  Curve_LoadFromFile prior (Curve_SaveToFile c true ++ rest) = (c, Ok tt).
Proof. intros A B C. apply C57_lemma. split; [apply fits_range; exact A|]. split; apply fits_len; assumption. Qed.
Lemma surface_fits_intro s : INT_MIN <= DegreeU s <= INT_MAX -> INT_MIN <= DegreeV s <= INT_MAX -> len (KnotsU s) <= INT_MAX -> len (KnotsV s) <= INT_MAX ->
  0 < UCount (Net s) -> 0 < VCount (Net s) -> len (Values (Net s)) = UCount (Net s) * VCount (Net s) -> len (Values (Net s)) <= INT_MAX -> surface_fits s.
Proof.
  intros A B C D E F G H. split; [apply fits_range; exact A|]. split; [apply fits_range; exact B|].
  split; [apply fits_len; exact C|]. split; [apply fits_len; exact D|]. split; [exact E|]. split; [exact F|]. split; [exact G|]. apply fits_len. exact H.
Qed.
Lemma C58_thm (s : surface dbl) : INT_MIN <= DegreeU s <= INT_MAX -> INT_MIN <= DegreeV s <= INT_MAX -> len (KnotsU s) <= INT_MAX -> len (KnotsV s) <= INT_MAX ->
  0 < UCount (Net s) -> 0 < VCount (Net s) -> len (Values (Net s)) = UCount (Net s) * VCount (Net s) -> len (Values (Net s)) <= INT_MAX ->
  exists file, Surface_SaveToFile s true = Ok file /\ forall prior rest, Surface_LoadFromFile prior (file ++ rest) = (s, Ok tt).
Proof.
  intros A B C D E F G H. pose proof (surface_fits_intro s A B C D E F G H) as S. destruct (C58_lemma s s S) as [f [Ef _]].
  exists f. split; [exact Ef|]. intros prior rest. destruct (C58_lemma s prior S) as [f' [Ef' L]]. rewrite Ef in Ef'. inversion Ef'; subst. apply L.
Qed.
Lemma C58_refuted_lemma :
  Surface_SaveToFile (@Surface_default dbl) true = Undefined OutOfBounds /\
  (exists (s : surface dbl) file, Grid_make 0 0 (Vec4 (dbl_of_bits 0) (dbl_of_bits 0) (dbl_of_bits 0) (dbl_of_bits 0)) = Ok (Net s) /\
     Surface_SaveToFile s true = Ok file /\ forall prior, exists s', Surface_LoadFromFile prior file = (s', Throw RuntimeError)).
Proof.
  split; [reflexivity|]. exists (Surface 0 0 [] [] (Grid 0 0 [])). eexists. split; [reflexivity|]. split; [reflexivity|].
  intros prior. eexists. reflexivity.
Qed.
Lemma C59_curve_thm (c prior : curve dbl) n : INT_MIN <= Degree c <= INT_MAX -> len (Knots c) <= INT_MAX -> len (ControlPoints c) <= INT_MAX ->
  (n < length (Curve_SaveToFile c true))%nat -> exists c', Curve_LoadFromFile prior (firstn n (Curve_SaveToFile c true)) = (c', Throw RuntimeError).
Proof. intros A B C. apply C59_curve_lemma. split; [apply fits_range; exact A|]. split; apply fits_len; assumption. Qed.
Lemma C59_surface_thm (s : surface dbl) file n prior : INT_MIN <= DegreeU s <= INT_MAX -> INT_MIN <= DegreeV s <= INT_MAX -> len (KnotsU s) <= INT_MAX -> len (KnotsV s) <= INT_MAX ->
  0 < UCount (Net s) -> 0 < VCount (Net s) -> len (Values (Net s)) = UCount (Net s) * VCount (Net s) -> len (Values (Net s)) <= INT_MAX ->
  Surface_SaveToFile s true = Ok file -> (n < length file)%nat -> exists s', Surface_LoadFromFile prior (firstn n file) = (s', Throw RuntimeError).
Proof.
  intros A B C D E F G H Ef L. destruct (C59_surface_lemma s prior (surface_fits_intro s A B C D E F G H)) as [f [Ef' K]].
  rewrite Ef in Ef'. inversion Ef'; subst. apply K. exact L.
Qed.

(** ** Concrete objects *)
Definition d_ (f : b64) : dbl := dbl_of_value f.
Definition d0 : dbl := d_ (S754_zero false).
Definition dm0 : dbl := d_ (S754_zero true).
Definition d1 : dbl := d_ (b64_of_Z 1).
(** a signalling NaN with a payload *)
Definition dnan : dbl := dbl_of_bits (2047 * 2 ^ 52 + 5).
Definition curve_dbl : curve dbl := Curve 1 [d0; d0; d1; d1] [Vec4 d0 dnan d0 d1; Vec4 d1 dm0 (d_ (S754_infinity true)) d1].
Definition surface_dbl : surface dbl :=
  Surface 1 1 [d0; d0; d1; d1] [d0; d0; d1; d1] (Grid 2 2 [Vec4 d0 d0 d0 d1; Vec4 d1 d0 d0 d1; Vec4 d0 d1 d0 d1; Vec4 d1 d1 dnan d1]).
Definition line_dbl : curve dbl := Curve 1 [d0; d0; d1; d1] [Vec4 d0 d0 d0 d1; Vec4 d1 d0 d0 d1].
Definition square_dbl : surface dbl :=
  Surface 1 1 [d0; d0; d1; d1] [d0; d0; d1; d1] (Grid 2 2 [Vec4 d0 d0 d0 d1; Vec4 d1 d0 d0 d1; Vec4 d0 d1 d0 d1; Vec4 d1 d1 d0 d1]).
Lemma C62_refuted_lemma :
  (exists (c1 c2 c1' c2' : curve dbl) is, Curve_LoadFromFile c1 is = (c1', Ok tt) /\ Curve_LoadFromFile c2 is = (c2', Ok tt) /\ c1' <> c2' /\
     is = Curve_SaveToFile c1' false) /\
  (exists (s1 s2 s1' s2' : surface dbl) is, Surface_LoadFromFile s1 is = (s1', Ok tt) /\ Surface_LoadFromFile s2 is = (s2', Ok tt) /\ s1' <> s2' /\
     Ok is = Surface_SaveToFile s1' false).
Proof.
  split.
  - exists (Curve 7 [] []), line_dbl, line_dbl. eexists. exists (Curve_SaveToFile line_dbl false).
    split; [vm_compute; reflexivity|]. split; [vm_compute; reflexivity|]. split; [vm_compute; discriminate|reflexivity].
  - exists (Surface (-1) (-1) [] [] (Grid (-1) (-1) [])), square_dbl, square_dbl. eexists. eexists.
    split; [|split; [|split; [|symmetry; vm_compute; reflexivity]]]; [vm_compute; reflexivity|vm_compute; reflexivity|vm_compute; discriminate].
Qed.
Lemma C63_ex_lemma : 
  (forall b rest, ~ good_header "CURVE" b (str "LIBNURBS BIN SURFACE") rest) /\
  (forall b rest, ~ good_header "CURVE" b (str "LIBNURBS XML CURVE") rest) /\
  (forall b rest, ~ good_header "CURVE" b (str "libnurbs BIN CURVE") rest) /\
  (forall b rest, ~ good_header "SURFACE" b [] rest) /\
  good_header "SURFACE" false (str "LIBNURBS TXT SURFACE") [].
Proof.
  split; [|split; [|split; [|split]]]; try (intros b rest H; apply (load_header_spec _ _ _ _ word_curve) in H; vm_compute in H; discriminate).
  - intros b rest H. apply (load_header_spec _ _ _ _ word_surface) in H. vm_compute in H. discriminate.
  - apply (load_header_spec _ _ _ _ word_surface). reflexivity.
Qed.
