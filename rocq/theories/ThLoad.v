(** Loading arbitrary bytes (C70, C71). *)
From Coq Require Import List ZArith Lia Bool Ascii String.
From Verif Require Import Outcome Num ModelCore ModelCurve ModelSurface ModelSerial SpecSerial ThSerial2 ThSerialWit ThCoreWit.
Import ListNotations.
Open Scope Z_scope.

Definition ends (o : outcome unit) : Prop := o = Ok tt \/ o = Throw RuntimeError.
Lemma ends_fail {A} (a : A) : ends (snd (fail a)). Proof. right. reflexivity. Qed.
Lemma ends_ok : ends (Ok tt). Proof. left. reflexivity. Qed.
Lemma ends_done {A} (a : A) b : ends (snd (done a b)). Proof. destruct b; [left|right]; reflexivity. Qed.

Section Loop.
  Context {Obj : Type} (pk : bytes -> list bytes -> Obj -> Obj * outcome unit) (Good : outcome unit -> Prop) (Inv : Obj -> Prop).
  Hypothesis good_ok : Good (Ok tt).
  Hypothesis good_fail : Good (Throw RuntimeError).
  Hypothesis pk_good : forall k l o, Good (snd (pk k l o)).
  Hypothesis pk_inv : forall k l o, Inv o -> snd (pk k l o) = Ok tt -> Inv (fst (pk k l o)).
  Lemma flush_good k l o : Good (snd (flush pk k l o)).
  Proof. unfold flush. destruct (bytes_eqb k []); [exact good_ok|apply pk_good]. Qed.
  Lemma flush_inv k l o : Inv o -> snd (flush pk k l o) = Ok tt -> Inv (fst (flush pk k l o)).
  Proof. unfold flush. destruct (bytes_eqb k []); [auto|apply pk_inv]. Qed.
  Lemma loop_good lines : forall k l o, Good (snd (text_loop pk lines k l o)).
  Proof.
    induction lines as [|line rest IH]; intros k l o; cbn [text_loop]; [apply flush_good|]. cbv zeta. destruct (bytes_eqb (TrimString line) []); [apply IH|].
    destruct (is_key_line (TrimString line)).
    - pose proof (flush_good k l o) as G. destruct (flush pk k l o) as [o' [[]| | | | |]]; try exact G. destruct (split_key (TrimString line)). apply IH.
    - destruct (bytes_eqb k []); [exact good_fail|apply IH].
  Qed.
  Lemma loop_inv lines : forall k l o, Inv o -> snd (text_loop pk lines k l o) = Ok tt -> Inv (fst (text_loop pk lines k l o)).
  Proof.
    induction lines as [|line rest IH]; intros k l o Io; cbn [text_loop]; [apply flush_inv, Io|]. cbv zeta. destruct (bytes_eqb (TrimString line) []); [apply IH, Io|].
    destruct (is_key_line (TrimString line)).
    - pose proof (flush_inv k l o Io) as G. destruct (flush pk k l o) as [o' [[]| | | | |]]; cbn [fst snd] in *; try discriminate. destruct (split_key (TrimString line)). apply IH. apply G. reflexivity.
    - destruct (bytes_eqb k []); [discriminate|apply IH, Io].
  Qed.
End Loop.

Lemma curve_key_ends k l c : ends (snd (Curve_process_key k l c)).
Proof.
  unfold Curve_process_key. destruct (bytes_eqb k (str "Degree")).
  - destruct l as [|x [|]]; try apply ends_fail. destruct (parse_int x) as [[? ?]|]; [apply ends_ok|apply ends_fail].
  - destruct (bytes_eqb k (str "Knots")); [destruct (push_all _ _); apply ends_done|]. destruct (bytes_eqb k (str "ControlPoints")); [destruct (push_all _ _); apply ends_done|apply ends_fail].
Qed.
Lemma Curve_load_ends c is : ends (snd (Curve_LoadFromFile c is)).
Proof.
  unfold Curve_LoadFromFile. destruct (load_header _ is) as [[[|] rest]|]; [| |apply ends_fail].
  - unfold Curve_load_bin. destruct (read_int rest) as [[? ?]|]; [|apply ends_fail]. cbv zeta. destruct (ReadKnotVector _) as [[? ?]|]; [|apply ends_fail]. destruct (read_int _) as [[n r]|]; [|apply ends_fail].
    destruct (n <? 0); [apply ends_fail|]. destruct (read_points _ _) as [[? ?]|]; [apply ends_ok|apply ends_fail].
  - unfold Curve_load_txt, Surface_load_txt; apply loop_good; [apply ends_ok|right; reflexivity|apply curve_key_ends].
Qed.

Definition ends_int (o : outcome unit) : Prop := ends o \/ o = Undefined IntOverflow.
Definition solid (s : surface dbl) : Prop := 0 < UCount (Net s) /\ 0 < VCount (Net s) /\ len (Values (Net s)) = UCount (Net s) * VCount (Net s).
Lemma len_push_all {A} (f : bytes -> option A) toks : forall l, push_all f toks = (l, true) -> len l = len toks.
Proof.
  induction toks as [|t r IH]; intros l; cbn [push_all]; [intros [= <-]; reflexivity|]. destruct (f t); [|discriminate]. destruct (push_all f r) as [l' b] eqn:E. intros [= <- ->].
  specialize (IH _ eq_refl). unfold len in *. cbn [List.length]. lia.
Qed.
Lemma len_read_points n : forall is l r, read_points n is = Some (l, r) -> List.length l = n.
Proof.
  induction n as [|n IH]; intros is l r; cbn [read_points]; [intros [= <- <-]; reflexivity|]. destruct (ReadVec4 is) as [[p is1]|]; [|discriminate].
  destruct (read_points n is1) as [[l' is2]|] eqn:E; [|discriminate]. intros [= <- <-]. cbn [List.length]. f_equal. exact (IH _ _ _ E).
Qed.
Definition too_large (s : surface dbl) : Prop := 0 < UCount (Net s) /\ 0 < VCount (Net s) /\ fits_int (UCount (Net s) * VCount (Net s)) = false.
Definition verdict (r : surface dbl * outcome unit) : Prop :=
  ends_int (snd r) /\ (snd r = Ok tt -> solid (fst r)) /\ (snd r = Undefined IntOverflow -> too_large (fst r)).
Lemma verdict_fail s : verdict (fail s).
Proof. split; [left; apply ends_fail|]. split; discriminate. Qed.
Ltac let1 := match goal with |- ?P (let s := ?v in @?f s) => change (P (f v)); generalize v; intro; cbv beta end.
Lemma bin_verdict s is : verdict (Surface_load_bin s is).
Proof.
  cbv beta delta [Surface_load_bin]. destruct (read_int is) as [[? ?]|]; [|apply verdict_fail]. let1. destruct (read_int _) as [[? ?]|]; [|apply verdict_fail]. let1. destruct (ReadKnotVector _) as [[? ?]|]; [|apply verdict_fail]. let1.
  destruct (ReadKnotVector _) as [[? ?]|]; [|apply verdict_fail]. let1. destruct (read_int _) as [[uc ?]|]; [|apply verdict_fail]. let1. destruct (read_int _) as [[vc ?]|]; [|apply verdict_fail]. cbv zeta. cbn [DegreeU DegreeV KnotsU KnotsV Net UCount VCount Values].
  destruct (Z.leb_spec uc 0); [apply verdict_fail|]. destruct (Z.leb_spec vc 0); [apply verdict_fail|]. cbn [orb]. destruct (fits_int (uc * vc)) eqn:F; cbn [negb].
  - destruct (read_points _ _) as [[pts ?]|] eqn:E; [|apply verdict_fail]. split; [left; apply ends_ok|]. split; [|discriminate]. intros _. apply len_read_points in E. split; [assumption|]. split; [assumption|]. cbn. unfold len. rewrite E. nia.
  - split; [right; reflexivity|]. split; [discriminate|]. intros _. split; [assumption|]. split; assumption.
Qed.
Definition kverdict (s : surface dbl) (r : surface dbl * outcome unit) : Prop :=
  ends_int (snd r) /\ (solid s -> snd r = Ok tt -> solid (fst r)) /\ (snd r = Undefined IntOverflow -> too_large (fst r)).
Lemma verdict_key s r : verdict r -> kverdict s r.
Proof. intros (A & B & C). split; [exact A|]. split; [intros _; exact B|exact C]. Qed.
Lemma kverdict_fail s s' : kverdict s (fail s').
Proof. apply verdict_key, verdict_fail. Qed.
Lemma kverdict_done s s' b : Net s' = Net s -> kverdict s (done s' b).
Proof. intros E. split; [left; apply ends_done|]. split; [|destruct b; discriminate]. destruct b; [|discriminate]. unfold solid. cbn [fst done]. rewrite E. auto. Qed.
Lemma surf_key k l s : kverdict s (Surface_process_key k l s).
Proof.
  unfold Surface_process_key. destruct (bytes_eqb k (str "DegreeU")); [|destruct (bytes_eqb k (str "DegreeV")); [|destruct (bytes_eqb k (str "KnotsU")); [|destruct (bytes_eqb k (str "KnotsV"))]]].
  1,2: destruct l as [|x [|]]; try apply kverdict_fail; destruct (parse_int x) as [[? ?]|]; try apply kverdict_fail; apply (kverdict_done s _ true); reflexivity.
  1,2: destruct (push_all _ _) as [? ?]; apply kverdict_done; reflexivity.
  destruct (bytes_eqb k (str "ControlPoints")); [|apply kverdict_fail]. destruct l as [|x rest]; [apply kverdict_fail|]. destruct (parse_int x) as [[uc r]|]; [|apply kverdict_fail]. cbv zeta.
  destruct (parse_int r) as [[vc ?]|]; [|apply kverdict_fail]. destruct (Z.leb_spec uc 0); [apply kverdict_fail|]. destruct (Z.leb_spec vc 0); [apply kverdict_fail|].
  cbn [orb]. destruct (fits_int (uc * vc)) eqn:F; cbn [negb]; apply verdict_key.
  - destruct (Z.eqb_spec (len rest) (uc * vc)) as [L|]; cbn [negb]; [|apply verdict_fail]. destruct (push_all _ _) as [pts ok] eqn:E. split; [left; apply ends_done|]. split; [|destruct ok; discriminate].
    destruct ok; cbn; [|discriminate]. intros _. apply len_push_all in E. split; [assumption|]. split; [assumption|]. cbn. congruence.
  - split; [right; reflexivity|]. split; [discriminate|]. intros _. split; [assumption|]. split; assumption.
Qed.
Lemma Surface_load_ends s is : ends_int (snd (Surface_LoadFromFile s is)).
Proof.
  unfold Surface_LoadFromFile. destruct (load_header _ is) as [[[|] rest]|]; [apply bin_verdict| |left; apply ends_fail].
  unfold Surface_load_txt; apply loop_good; [left; apply ends_ok|left; right; reflexivity|]. intros. apply surf_key.
Qed.
Lemma Surface_load_solid s is : snd (Surface_LoadFromFile s is) = Ok tt -> solid s \/ (exists rest, load_header "SURFACE" is = Some (true, rest)) -> solid (fst (Surface_LoadFromFile s is)).
Proof.
  unfold Surface_LoadFromFile. destruct (load_header _ is) as [[[|] rest]|]; [|intros E [Is|[r E']]; [|discriminate]|discriminate].
  - intros E _. apply bin_verdict, E.
  - unfold Surface_load_txt in *; apply (loop_inv _ solid); [|exact Is|exact E]. intros k l o S. apply surf_key; assumption.
Qed.
Lemma loop_overflow lines : forall k l o, snd (text_loop Surface_process_key lines k l o) = Undefined IntOverflow -> too_large (fst (text_loop Surface_process_key lines k l o)).
Proof.
  assert (Fl : forall k l o, snd (flush Surface_process_key k l o) = Undefined IntOverflow -> too_large (fst (flush Surface_process_key k l o))).
  { intros k l o. unfold flush. destruct (bytes_eqb k []); [discriminate|apply surf_key]. }
  induction lines as [|line rest IH]; intros k l o; cbn [text_loop]; [apply Fl|]. cbv zeta. destruct (bytes_eqb (TrimString line) []); [apply IH|].
  destruct (is_key_line (TrimString line)).
  - pose proof (Fl k l o) as G. destruct (flush Surface_process_key k l o) as [o' [[]| | | | |]]; cbn [fst snd] in *; try discriminate; [|exact G]. destruct (split_key (TrimString line)). apply IH.
  - destruct (bytes_eqb k []); [discriminate|apply IH].
Qed.
Lemma Surface_load_overflow s is : snd (Surface_LoadFromFile s is) = Undefined IntOverflow -> too_large (fst (Surface_LoadFromFile s is)).
Proof. unfold Surface_LoadFromFile. destruct (load_header _ is) as [[[|] rest]|]; [apply bin_verdict|apply loop_overflow|discriminate]. Qed.

(** ** Statements *)
Lemma C70_curve_lemma (c : curve dbl) is : exists c', Curve_LoadFromFile c is = (c', Ok tt) \/ Curve_LoadFromFile c is = (c', Throw RuntimeError).
Proof. exists (fst (Curve_LoadFromFile c is)). pose proof (Curve_load_ends c is) as E. destruct (Curve_LoadFromFile c is) as [c' o]. cbn [fst snd] in *. destruct E as [->| ->]; auto. Qed.
Lemma fits_false a : 0 < a -> fits_int a = false -> INT_MAX < a.
Proof. unfold fits_int. intros P H. apply andb_false_iff in H. rewrite !Z.leb_gt in H. unfold INT_MIN in H. lia. Qed.
Lemma C70_surface_lemma (s : surface dbl) is : exists s', Surface_LoadFromFile s is = (s', Ok tt) \/ Surface_LoadFromFile s is = (s', Throw RuntimeError) \/
  (Surface_LoadFromFile s is = (s', Undefined IntOverflow) /\ 0 < UCount (Net s') /\ 0 < VCount (Net s') /\ INT_MAX < UCount (Net s') * VCount (Net s')).
Proof.
  exists (fst (Surface_LoadFromFile s is)). pose proof (Surface_load_ends s is) as E. pose proof (Surface_load_overflow s is) as O. destruct (Surface_LoadFromFile s is) as [s' o]. cbn [fst snd] in *.
  destruct E as [[->| ->]| ->]; auto. right. right. destruct (O eq_refl) as (U & V & F). split; [reflexivity|]. split; [exact U|]. split; [exact V|]. apply fits_false; [nia|exact F].
Qed.
(** A text file and a binary file announcing 65536 x 65536 points. *)
Definition huge_txt : bytes := str "LIBNURBS TXT SURFACE" ++ [newline] ++ str "*ControlPoints:" ++ [newline] ++ str "65536 65536".
Definition huge_bin : bytes := str "LIBNURBS BIN SURFACE" ++ [newline] ++ int_bytes 1 ++ int_bytes 1 ++ int_bytes 0 ++ int_bytes 0 ++ int_bytes 65536 ++ int_bytes 65536.
Lemma C70_refuted_lemma : forall s : surface dbl, snd (Surface_LoadFromFile s huge_txt) = Undefined IntOverflow /\ snd (Surface_LoadFromFile s huge_bin) = Undefined IntOverflow.
Proof. intros s. split; vm_compute; reflexivity. Qed.

(** ** What a successful load guarantees *)
Lemma C71_surface_lemma (s s' : surface dbl) is : Surface_LoadFromFile s is = (s', Ok tt) ->
  (exists rest, good_header "SURFACE" true is rest) \/ (0 < UCount (Net s) /\ 0 < VCount (Net s) /\ len (Values (Net s)) = UCount (Net s) * VCount (Net s)) ->
  0 < UCount (Net s') /\ 0 < VCount (Net s') /\ len (Values (Net s')) = UCount (Net s') * VCount (Net s').
Proof.
  intros E H. pose proof (Surface_load_solid s is) as L. rewrite E in L. cbn [fst snd] in L. apply L; [reflexivity|].
  destruct H as [[rest G]|S]; [right; exists rest; apply (load_header_spec _ _ _ _ word_surface), G|left; exact S].
Qed.
(** The object as the evaluator sees it. *)
Definition vec_value (v : vec4 dbl) : vec4 b64 := Vec4 (dbl_value (x4 v)) (dbl_value (y4 v)) (dbl_value (z4 v)) (dbl_value (w4 v)).
Definition curve_value (c : curve dbl) : curve b64 := Curve (Degree c) (map dbl_value (Knots c)) (map vec_value (ControlPoints c)).
Definition surface_value (s : surface dbl) : surface b64 :=
  Surface (DegreeU s) (DegreeV s) (map dbl_value (KnotsU s)) (map dbl_value (KnotsV s)) (Grid (UCount (Net s)) (VCount (Net s)) (map vec_value (Values (Net s)))).
Definition pointless : curve dbl := Curve 1 [d0; d0; d1; d1] [].
Definition unknotted : surface dbl := Surface 1 1 [d0; d0; d_ dhalf; d1; d1] [d0; d0; d_ dhalf; d1; d1] (Grid 2 2 [Vec4 d0 d0 d0 d1; Vec4 d1 d0 d0 d1; Vec4 d0 d1 d0 d1; Vec4 d1 d1 d0 d1]).
Lemma C71_refuted_lemma :
  (exists is c, Curve_LoadFromFile (@Curve_default dbl) is = (c, Ok tt) /\ Curve_Evaluate (curve_value c) dhalf = Undefined OutOfBounds) /\
  (exists is s, Surface_LoadFromFile (@Surface_default dbl) is = (s, Ok tt) /\ Surface_Evaluate (surface_value s) dhalf dhalf = AssertFail) /\
  (exists is s, Surface_LoadFromFile (@Surface_default dbl) is = (s, Ok tt) /\ Surface_SaveToFile s true = Undefined OutOfBounds).
Proof.
  split; [|split].
  - exists (Curve_SaveToFile pointless true), pointless. split; vm_compute; reflexivity.
  - destruct (Surface_SaveToFile unknotted true) as [f| | | | |] eqn:E; try (vm_compute in E; discriminate). exists f, unknotted. split; [|vm_compute; reflexivity].
    assert (Some f = match Surface_SaveToFile unknotted true with Ok f => Some f | _ => None end) as F by (rewrite E; reflexivity). vm_compute in F. injection F as ->. vm_compute. reflexivity.
  - exists (str "LIBNURBS TXT SURFACE"), Surface_default. split; vm_compute; reflexivity.
Qed.
(** A valid object that received a truncated file. *)
Definition cut_curve : bytes := firstn 75 (Curve_SaveToFile (Curve 1 [d0; d0; d0; d_ dhalf; d1; d1] []) true).
Definition cut_surface : bytes := str "LIBNURBS TXT SURFACE" ++ [newline] ++ str "*ControlPoints:" ++ [newline] ++ str "7 2".
Lemma C72_refuted_lemma :
  (exists c is c', Curve_LoadFromFile c is = (c', Throw RuntimeError) /\ c' <> c /\
     (exists p, Curve_Evaluate (curve_value c) dhalf = Ok p) /\ Curve_Evaluate (curve_value c') dhalf = Undefined OutOfBounds) /\
  (exists s is s', Surface_LoadFromFile s is = (s', Throw RuntimeError) /\ s' <> s /\
     (exists p, Surface_Evaluate (surface_value s) dhalf dhalf = Ok p) /\ (exists file, Surface_SaveToFile s true = Ok file) /\ Surface_SaveToFile s' true = Undefined OutOfBounds).
Proof.
  split.
  - exists line_dbl, cut_curve. eexists. split; [vm_compute; reflexivity|]. split; [vm_compute; discriminate|]. split; [eexists; vm_compute; reflexivity|]. vm_compute. reflexivity.
  - exists square_dbl, cut_surface. eexists. split; [vm_compute; reflexivity|]. split; [vm_compute; discriminate|]. split; [eexists; vm_compute; reflexivity|]. split; [eexists; vm_compute; reflexivity|]. vm_compute. reflexivity.
Qed.
Definition square_txt : bytes := Eval vm_compute in match Surface_SaveToFile square_dbl false with Ok f => f | _ => [] end.
