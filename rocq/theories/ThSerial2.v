(** Headers and the effect of loading on an object that already has content. *)
From Coq Require Import List ZArith Lia Bool Ascii String.
From Verif Require Import Outcome Num ModelCore ModelCurve ModelSurface ModelSerial SpecSerial ThOutcome ThSerial.
Import ListNotations.
Open Scope Z_scope.
Notation length := List.length.

Lemma bytes_eqb_eq a b : bytes_eqb a b = true <-> a = b.
Proof.
  revert b. induction a as [|x a IH]; intros [|y b]; simpl; try (split; congruence).
  rewrite andb_true_iff, IH, Ascii.eqb_eq. split; [intros [-> ->]; reflexivity|intros E; inversion E; auto].
Qed.
Lemma bytes_eqb_refl a : bytes_eqb a a = true.
Proof. apply bytes_eqb_eq. reflexivity. Qed.
Lemma isspace_blank c : isspace c = true <-> blank c.
Proof.
  split.
  - assert (forallb (fun n => implb (isspace (ascii_of_nat n)) (existsb (Ascii.eqb (ascii_of_nat n)) [" "%char; "009"%char; "010"%char; "011"%char; "012"%char; "013"%char])) (seq 0 256) = true) as H
      by (vm_compute; reflexivity).
    rewrite forallb_forall in H. specialize (H (nat_of_ascii c)). rewrite in_seq, ascii_nat_embedding in H.
    specialize (H ltac:(pose proof (nat_ascii_bounded c); lia)). intros E. rewrite E in H. apply existsb_exists in H. destruct H as [x [Hx E2]].
    apply Ascii.eqb_eq in E2. subst x. exact Hx.
  - intros H. repeat (destruct H as [<-|H]; [reflexivity|]). contradiction.
Qed.
Lemma drop_spaces_spec s : exists sp, s = sp ++ drop_spaces s /\ blanks sp /\ (drop_spaces s = [] \/ exists c t, drop_spaces s = c :: t /\ ~ blank c).
Proof.
  induction s as [|c s [sp [E [B H]]]]; [exists []; repeat split; [constructor|left; reflexivity]|]. simpl. destruct (isspace c) eqn:Ec.
  - exists (c :: sp). split; [simpl; f_equal; exact E|]. split; [constructor; [apply isspace_blank; exact Ec|exact B]|exact H].
  - exists []. split; [reflexivity|]. split; [constructor|]. right. exists c, s. split; [reflexivity|]. rewrite <- isspace_blank. congruence.
Qed.
Lemma take_word_spec s w r : take_word s = (w, r) -> s = w ++ r /\ Forall (fun c => ~ blank c) w /\ separated_tail r.
Proof.
  revert w r. induction s as [|c s IH]; intros w r E; simpl in E.
  - inversion E. repeat split; [constructor|left; reflexivity].
  - destruct (isspace c) eqn:Ec.
    + inversion E. repeat split; [constructor|right; exists c, s; split; [reflexivity|apply isspace_blank; exact Ec]].
    + destruct (take_word s) as [w' r'] eqn:E'. inversion E; subst. destruct (IH _ _ eq_refl) as [-> [F S]].
      repeat split; [|exact S]. constructor; [rewrite <- isspace_blank; congruence|exact F].
Qed.
Lemma drop_spaces_app sp s : blanks sp -> (s = [] \/ exists c t, s = c :: t /\ ~ blank c) -> drop_spaces (sp ++ s) = s.
Proof.
  intros B H. induction B as [|c sp Hc B IH]; simpl.
  - destruct H as [->|[c [t [-> N]]]]; [reflexivity|]. simpl. destruct (isspace c) eqn:E; [apply isspace_blank in E; contradiction|reflexivity].
  - apply isspace_blank in Hc. rewrite Hc. exact IH.
Qed.
Lemma take_word_app w r : Forall (fun c => ~ blank c) w -> separated_tail r -> take_word (w ++ r) = (w, r).
Proof.
  intros F S. induction F as [|c w Hc F IH]; simpl.
  - destruct S as [->|[c [t [-> B]]]]; [reflexivity|]. simpl. apply isspace_blank in B. rewrite B. reflexivity.
  - destruct (isspace c) eqn:E; [apply isspace_blank in E; contradiction|]. rewrite IH. reflexivity.
Qed.
Definition word (w : bytes) : Prop := w <> [] /\ Forall (fun c => ~ blank c) w.
Lemma read_word_app sp w r : blanks sp -> word w -> separated_tail r -> read_word (sp ++ w ++ r) = (w, r).
Proof.
  intros B [N F] S. unfold read_word. rewrite drop_spaces_app; [apply take_word_app; assumption|exact B|].
  right. destruct F as [|c w Hc F]; [congruence|]. exists c, (w ++ r). auto.
Qed.
Lemma read_word_inv s w r : read_word s = (w, r) -> exists sp, s = sp ++ w ++ r /\ blanks sp /\ separated_tail r.
Proof.
  unfold read_word. intros E. destruct (drop_spaces_spec s) as [sp [Es [B _]]]. destruct (take_word_spec _ _ _ E) as [E2 [F S]].
  exists sp. rewrite <- E2. auto.
Qed.
Lemma wordb w : negb (bytes_eqb w []) && forallb (fun c => negb (isspace c)) w = true -> word w.
Proof.
  rewrite andb_true_iff, !negb_true_iff, forallb_forall. intros [N F]. split; [intros ->; discriminate|]. apply Forall_forall. intros c Hc.
  specialize (F c Hc). apply negb_true_iff in F. rewrite <- isspace_blank. congruence.
Qed.
Lemma sep_blanks_app s w r : blanks s -> s <> [] -> separated_tail (s ++ w ++ r).
Proof. intros B N. destruct B as [|c s Hc B]; [congruence|]. right. exists c, (s ++ w ++ r). auto. Qed.
Lemma three_words_read line a b c : word a -> word b -> word c ->
  (let '(m, r) := read_word line in let '(mo, r) := read_word r in let '(ty, _) := read_word r in m = a /\ mo = b /\ ty = c) <-> three_words line a b c.
Proof.
  intros Wa Wb Wc. split.
  - destruct (read_word line) as [m r1] eqn:E1. destruct (read_word r1) as [mo r2] eqn:E2. destruct (read_word r2) as [ty r3] eqn:E3.
    intros [-> [-> ->]]. apply read_word_inv in E1, E2, E3. destruct E1 as [s1 [-> [B1 S1]]]. destruct E2 as [s2 [-> [B2 S2]]]. destruct E3 as [s3 [-> [B3 S3]]].
    exists s1, s2, s3, r3. split; [reflexivity|]. split; [exact B1|]. split; [exact B2|]. split.
    { intros ->. destruct Wb as [N F]. destruct F as [|x b' Hx F]; [congruence|]. destruct S1 as [S1|[y [t [S1 By]]]]; simpl in S1; [discriminate|]. inversion S1; subst. contradiction. }
    split; [exact B3|]. split; [|exact S3].
    intros ->. destruct Wc as [N F]. destruct F as [|x b' Hx F]; [congruence|]. destruct S2 as [S2|[y [t [S2 By]]]]; simpl in S2; [discriminate|]. inversion S2; subst. contradiction.
  - intros [s1 [s2 [s3 [s4 [-> [B1 [B2 [N2 [B3 [N3 S]]]]]]]]]]. rewrite read_word_app; try assumption; [|apply sep_blanks_app; assumption].
    rewrite read_word_app; try assumption; [|apply sep_blanks_app; assumption]. rewrite read_word_app; try assumption. auto.
Qed.
Lemma split_at_spec d is l r : split_at d is = (l, r) -> ~ In d l /\ (is = l ++ d :: r \/ (is = l /\ r = [])).
Proof.
  revert l r. induction is as [|c is IH]; intros l r E; simpl in E.
  - inversion E. split; [intros []|right; auto].
  - destruct (Ascii.eqb_spec c d) as [->|N].
    + inversion E; subst. split; [intros []|left; reflexivity].
    + destruct (split_at d is) as [l' r'] eqn:E'. inversion E; subst. destruct (IH _ _ eq_refl) as [A B]. split.
      * intros [H|H]; [congruence|contradiction].
      * destruct B as [->|[-> ->]]; [left; reflexivity|right; auto].
Qed.
Lemma split_at_none d l : ~ In d l -> split_at d l = (l, []).
Proof.
  induction l as [|c l IH]; intros N; simpl; [reflexivity|]. destruct (Ascii.eqb_spec c d) as [->|]; [exfalso; apply N; left; reflexivity|].
  rewrite IH; [reflexivity|]. intros H. apply N. right. exact H.
Qed.
Lemma split_at_some d l r : ~ In d l -> split_at d (l ++ d :: r) = (l, r).
Proof.
  induction l as [|c l IH]; intros N; simpl; [rewrite Ascii.eqb_refl; reflexivity|]. destruct (Ascii.eqb_spec c d) as [->|]; [exfalso; apply N; left; reflexivity|].
  rewrite IH; [reflexivity|]. intros H. apply N. right. exact H.
Qed.
Lemma getline_spec is line rest : getline newline is = Some (line, rest) <-> first_line is line rest.
Proof.
  unfold getline, first_line. fold newline. split.
  - intros E. destruct is as [|c is]; [discriminate|]. assert (split_at newline (c :: is) = (line, rest)) as E0 by congruence. destruct (split_at_spec newline _ _ _ E0) as [A [B|[B ->]]].
    + split; [exact A|left; exact B].
    + split; [exact A|right]. split; [exact B|]. split; [reflexivity|discriminate].
  - intros [N [->|[-> [-> Ne]]]].
    + destruct (line ++ newline :: rest) as [|c t] eqn:E; [destruct line; discriminate|]. rewrite <- E, split_at_some by exact N. reflexivity.
    + destruct line as [|c l]; [congruence|]. rewrite split_at_none by exact N. reflexivity.
Qed.
Lemma load_header_spec type b is rest : word (str type) -> load_header type is = Some (b, rest) <-> good_header type b is rest.
Proof.
  intros Wt. unfold load_header, good_header.
  assert (word MAGIC) as Wm by (apply wordb; reflexivity).
  assert (forall b : bool, word (str (if b then "BIN" else "TXT"))) as Wb by (intros []; apply wordb; reflexivity).
  split.
  - destruct (getline newline is) as [[line r]|] eqn:E; [|discriminate]. apply getline_spec in E. intros H. exists line.
    pose proof (three_words_read line MAGIC (str (if b then "BIN" else "TXT")) (str type) Wm (Wb b) Wt) as T.
    destruct (read_word line) as [m r1] eqn:E1. destruct (read_word r1) as [mo r2] eqn:E2. destruct (read_word r2) as [ty r3] eqn:E3.
    destruct (bytes_eqb m MAGIC) eqn:Em; cbn [negb] in H; [|discriminate]. apply bytes_eqb_eq in Em.
    destruct (bytes_eqb mo (str "TXT")) eqn:Et.
    + destruct (bytes_eqb ty (str type)) eqn:Ey; [|discriminate]. apply bytes_eqb_eq in Et, Ey. injection H as <- <-.
      split; [exact E|]. apply T. auto.
    + destruct (bytes_eqb mo (str "BIN")) eqn:Ebn; [|discriminate]. destruct (bytes_eqb ty (str type)) eqn:Ey; [|discriminate].
      apply bytes_eqb_eq in Ebn, Ey. injection H as <- <-. split; [exact E|]. apply T. auto.
  - intros [line [E T]]. apply getline_spec in E. rewrite E. apply (three_words_read line MAGIC (str (if b then "BIN" else "TXT")) (str type) Wm (Wb b) Wt) in T.
    destruct (read_word line) as [m r1]. destruct (read_word r1) as [mo r2]. destruct (read_word r2) as [ty r3]. destruct T as [-> [-> ->]].
    rewrite !bytes_eqb_refl. cbn [negb]. destruct b; [|reflexivity]. change (bytes_eqb (str "BIN") (str "TXT")) with false. cbv iota. reflexivity.
Qed.
Lemma word_curve : word (str "CURVE"). Proof. apply wordb. reflexivity. Qed.
Lemma word_surface : word (str "SURFACE"). Proof. apply wordb. reflexivity. Qed.
Lemma C63_curve_lemma (c : curve dbl) is : (forall b rest, ~ good_header "CURVE" b is rest) -> Curve_LoadFromFile c is = (c, Throw RuntimeError).
Proof.
  intros H. unfold Curve_LoadFromFile. destruct (load_header "CURVE" is) as [[b rest]|] eqn:E; [|reflexivity].
  apply (load_header_spec _ _ _ _ word_curve) in E. exfalso. apply (H b rest E).
Qed.
Lemma C63_surface_lemma (s : surface dbl) is : (forall b rest, ~ good_header "SURFACE" b is rest) -> Surface_LoadFromFile s is = (s, Throw RuntimeError).
Proof.
  intros H. unfold Surface_LoadFromFile. destruct (load_header "SURFACE" is) as [[b rest]|] eqn:E; [|reflexivity].
  apply (load_header_spec _ _ _ _ word_surface) in E. exfalso. apply (H b rest E).
Qed.
(** one stream has at most one header *)
Lemma good_header_unique t t' b b' is rest rest' : word (str t) -> word (str t') -> good_header t b is rest -> good_header t' b' is rest' -> str t = str t' /\ b = b' /\ rest = rest'.
Proof.
  intros W W' [line [L T]] [line' [L' T']]. apply getline_spec in L, L'. rewrite L in L'. injection L' as -> ->.
  assert (word MAGIC) as Wm by (apply wordb; reflexivity).
  assert (forall b : bool, word (str (if b then "BIN" else "TXT"))) as Wb by (intros []; apply wordb; reflexivity).
  apply (three_words_read line' MAGIC (str (if b then "BIN" else "TXT")) (str t) Wm (Wb b) W) in T.
  apply (three_words_read line' MAGIC (str (if b' then "BIN" else "TXT")) (str t') Wm (Wb b') W') in T'.
  destruct (read_word line') as [m r1]. destruct (read_word r1) as [mo r2]. destruct (read_word r2) as [ty r3].
  destruct T as [_ [E1 E2]]. destruct T' as [_ [E1' E2']]. split; [congruence|]. split; [|reflexivity]. rewrite E1 in E1'. destruct b, b'; try reflexivity; discriminate.
Qed.
Lemma C63_exclusive_lemma is : 
  (forall b rest (s : surface dbl), good_header "CURVE" b is rest -> Surface_LoadFromFile s is = (s, Throw RuntimeError)) /\
  (forall b rest (c : curve dbl), good_header "SURFACE" b is rest -> Curve_LoadFromFile c is = (c, Throw RuntimeError)).
Proof.
  split; intros b rest o H; [apply C63_surface_lemma|apply C63_curve_lemma]; intros b' rest' H';
    [destruct (good_header_unique _ _ _ _ _ _ _ word_curve word_surface H H') as [E _]|destruct (good_header_unique _ _ _ _ _ _ _ word_surface word_curve H H') as [E _]]; discriminate.
Qed.
(** a good header is not refused: what happens next depends on the rest only *)
Lemma C63_accept_lemma (c : curve dbl) (s : surface dbl) is rest :
  (good_header "CURVE" true is rest -> Curve_LoadFromFile c is = Curve_load_bin c rest) /\
  (good_header "CURVE" false is rest -> Curve_LoadFromFile c is = Curve_load_txt c rest) /\
  (good_header "SURFACE" true is rest -> Surface_LoadFromFile s is = Surface_load_bin s rest) /\
  (good_header "SURFACE" false is rest -> Surface_LoadFromFile s is = Surface_load_txt s rest).
Proof.
  unfold Curve_LoadFromFile, Surface_LoadFromFile.
  repeat split; intros H; [apply (load_header_spec _ _ _ _ word_curve) in H|apply (load_header_spec _ _ _ _ word_curve) in H
    |apply (load_header_spec _ _ _ _ word_surface) in H|apply (load_header_spec _ _ _ _ word_surface) in H]; rewrite H; reflexivity.
Qed.

(** ** C62 *)
Lemma C62_bin_curve_lemma (c1 c2 c' : curve dbl) is rest : good_header "CURVE" true is rest ->
  Curve_LoadFromFile c1 is = (c', Ok tt) -> Curve_LoadFromFile c2 is = (c', Ok tt).
Proof.
  intros G. apply (load_header_spec _ _ _ _ word_curve) in G. unfold Curve_LoadFromFile. rewrite G.
  pose proof (load_bin_read c1 rest) as A. pose proof (load_bin_read c2 rest) as B. destruct (read_curve rest) as [[c r]|].
  - rewrite A, B. auto.
  - destruct A as [x A]. rewrite A. discriminate.
Qed.
Lemma C62_bin_surface_lemma (s1 s2 s' : surface dbl) is rest : good_header "SURFACE" true is rest ->
  Surface_LoadFromFile s1 is = (s', Ok tt) -> Surface_LoadFromFile s2 is = (s', Ok tt).
Proof.
  intros G. apply (load_header_spec _ _ _ _ word_surface) in G. unfold Surface_LoadFromFile. rewrite G.
  pose proof (sload_bin_read s1 rest) as A. pose proof (sload_bin_read s2 rest) as B. destruct (read_surface rest) as [[s r]|].
  - rewrite A, B. auto.
  - destruct A as [x [o [A [-> | ->]]]]; rewrite A; discriminate.
Qed.
Section Rel.
  Context {Obj : Type} (pk : bytes -> list bytes -> Obj -> Obj * outcome unit) (Rel : Obj -> Obj -> Prop).
  Hypothesis step : forall key lines a b, Rel a b -> Rel (fst (pk key lines a)) (fst (pk key lines b)) /\ snd (pk key lines a) = snd (pk key lines b).
  Lemma flush_rel key content a b : Rel a b -> Rel (fst (flush pk key content a)) (fst (flush pk key content b)) /\ snd (flush pk key content a) = snd (flush pk key content b).
  Proof. intros H. unfold flush. destruct (bytes_eqb key []); [split; [exact H|reflexivity]|apply step; exact H]. Qed.
  Lemma text_loop_rel lines : forall key content a b, Rel a b ->
    Rel (fst (text_loop pk lines key content a)) (fst (text_loop pk lines key content b)) /\
    snd (text_loop pk lines key content a) = snd (text_loop pk lines key content b).
  Proof.
    induction lines as [|line rest IH]; intros key content a b H; cbn [text_loop]; [apply flush_rel; exact H|]. cbv zeta.
    destruct (bytes_eqb (TrimString line) []); [apply IH; exact H|]. destruct (is_key_line (TrimString line)).
    - destruct (flush_rel key content a b H) as [F1 F2]. destruct (flush pk key content a) as [a1 o1]. destruct (flush pk key content b) as [b1 o2].
      cbn [fst snd] in *. subst o2. destruct o1; try (split; [exact F1|reflexivity]). destruct (split_key (TrimString line)) as [k v]. apply IH. exact F1.
    - destruct (bytes_eqb key []); [split; [exact H|reflexivity]|apply IH; exact H].
  Qed.
End Rel.
Lemma C62_txt_curve_lemma (c : curve dbl) is rest : good_header "CURVE" false is rest ->
  let fresh := Curve (Degree c) [] [] in
  snd (Curve_LoadFromFile c is) = snd (Curve_LoadFromFile fresh is) /\
  Degree (fst (Curve_LoadFromFile c is)) = Degree (fst (Curve_LoadFromFile fresh is)) /\
  Knots (fst (Curve_LoadFromFile c is)) = Knots c ++ Knots (fst (Curve_LoadFromFile fresh is)) /\
  ControlPoints (fst (Curve_LoadFromFile c is)) = ControlPoints c ++ ControlPoints (fst (Curve_LoadFromFile fresh is)).
Proof.
  intros G fresh. apply (load_header_spec _ _ _ _ word_curve) in G. unfold Curve_LoadFromFile. rewrite G. unfold Curve_load_txt.
  set (Rel := fun a b : curve dbl => Degree a = Degree b /\ Knots a = Knots c ++ Knots b /\ ControlPoints a = ControlPoints c ++ ControlPoints b).
  destruct (text_loop_rel Curve_process_key Rel) with (lines := pieces newline rest) (key := @nil ascii) (content := @nil bytes) (a := c) (b := fresh) as [[A [B C]] D].
  - intros key lines a b [E1 [E2 E3]]. unfold Curve_process_key. destruct (bytes_eqb key (str "Degree")).
    { destruct lines as [|l [|? ?]]; try (split; [split; auto|reflexivity]). destruct (parse_int l) as [[d r]|]; (split; [split; auto|reflexivity]). }
    destruct (bytes_eqb key (str "Knots")).
    { destruct (push_all parse_knot (tokens lines)) as [l []]; (split; [|reflexivity]); unfold Rel; cbn; (split; [exact E1|split; [rewrite E2, app_assoc; reflexivity|exact E3]]). }
    destruct (bytes_eqb key (str "ControlPoints")).
    { destruct (push_all ReadVec4FromText (tokens lines)) as [l []]; (split; [|reflexivity]); unfold Rel; cbn; (split; [exact E1|split; [exact E2|rewrite E3, app_assoc; reflexivity]]). }
    split; [split; auto|reflexivity].
  - unfold Rel, fresh. cbn. rewrite !app_nil_r. auto.
  - auto.
Qed.
Lemma C62_txt_surface_lemma (s : surface dbl) is rest : good_header "SURFACE" false is rest ->
  let fresh := Surface (DegreeU s) (DegreeV s) [] [] (Net s) in
  snd (Surface_LoadFromFile s is) = snd (Surface_LoadFromFile fresh is) /\
  DegreeU (fst (Surface_LoadFromFile s is)) = DegreeU (fst (Surface_LoadFromFile fresh is)) /\
  DegreeV (fst (Surface_LoadFromFile s is)) = DegreeV (fst (Surface_LoadFromFile fresh is)) /\
  KnotsU (fst (Surface_LoadFromFile s is)) = KnotsU s ++ KnotsU (fst (Surface_LoadFromFile fresh is)) /\
  KnotsV (fst (Surface_LoadFromFile s is)) = KnotsV s ++ KnotsV (fst (Surface_LoadFromFile fresh is)) /\
  Net (fst (Surface_LoadFromFile s is)) = Net (fst (Surface_LoadFromFile fresh is)).
Proof.
  intros G fresh. apply (load_header_spec _ _ _ _ word_surface) in G. unfold Surface_LoadFromFile. rewrite G. unfold Surface_load_txt.
  set (Rel := fun a b : surface dbl => DegreeU a = DegreeU b /\ DegreeV a = DegreeV b /\ KnotsU a = KnotsU s ++ KnotsU b /\ KnotsV a = KnotsV s ++ KnotsV b /\ Net a = Net b).
  destruct (text_loop_rel Surface_process_key Rel) with (lines := pieces newline rest) (key := @nil ascii) (content := @nil bytes) (a := s) (b := fresh) as [[A [B [C [D E]]]] F].
  - intros key lines a b H. pose proof H as [E1 [E2 [E3 [E4 E5]]]]. unfold Surface_process_key. destruct (bytes_eqb key (str "DegreeU")).
    { destruct lines as [|l [|? ?]]; try (split; [exact H|reflexivity]). destruct (parse_int l) as [[d r]|]; (split; [|reflexivity]); [|exact H]. unfold Rel; cbn; auto. }
    destruct (bytes_eqb key (str "DegreeV")).
    { destruct lines as [|l [|? ?]]; try (split; [exact H|reflexivity]). destruct (parse_int l) as [[d r]|]; (split; [|reflexivity]); [|exact H]. unfold Rel; cbn; auto. }
    destruct (bytes_eqb key (str "KnotsU")).
    { destruct (push_all parse_knot (tokens lines)) as [l []]; (split; [|reflexivity]); unfold Rel; cbn; repeat split; auto; rewrite E3, app_assoc; reflexivity. }
    destruct (bytes_eqb key (str "KnotsV")).
    { destruct (push_all parse_knot (tokens lines)) as [l []]; (split; [|reflexivity]); unfold Rel; cbn; repeat split; auto; rewrite E4, app_assoc; reflexivity. }
    destruct (bytes_eqb key (str "ControlPoints")); [|split; [exact H|reflexivity]].
    destruct lines as [|dims lines]; [split; [exact H|reflexivity]|]. destruct (parse_int dims) as [[uc r]|]; [|split; [exact H|reflexivity]].
    cbv zeta. rewrite <- E5. unfold set_net. cbn [Net VCount Values DegreeU DegreeV KnotsU KnotsV].
    assert (forall g, Rel (Surface (DegreeU a) (DegreeV a) (KnotsU a) (KnotsV a) g) (Surface (DegreeU b) (DegreeV b) (KnotsU b) (KnotsV b) g)) as K by (intros g; unfold Rel; cbn; auto).
    destruct (parse_int r) as [[vc r']|]; [|split; [apply K|reflexivity]].
    destruct ((uc <=? 0) || (vc <=? 0)); [split; [apply K|reflexivity]|]. destruct (negb (fits_int (uc * vc))); [split; [apply K|reflexivity]|].
    destruct (negb (len lines =? uc * vc)); [split; [apply K|reflexivity]|]. destruct (push_all ReadVec4FromText lines) as [pts []]; (split; [apply K|reflexivity]).
  - unfold Rel, fresh. cbn. rewrite !app_nil_r. auto.
  - auto 10.
Qed.
