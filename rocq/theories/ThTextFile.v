(** Text files: the saved lines and what loading them yields. *)
From Coq Require Import List ZArith Lia Bool Ascii String.
From Coq Require Import Floats.SpecFloat.
From Flocq Require Import Core IEEE754.BinarySingleNaN.
From Verif Require Import Outcome Num ModelCore ModelCurve ModelSurface ModelSerial SpecSerial ThOutcome ThSerial ThSerial2 ThText ThTextNum ThTextBits.
Import ListNotations.
Open Scope Z_scope.
Notation length := List.length.

(** ** One number *)
Definition fin (d : dbl) : Prop := is_finite_SF (dbl_value d) = true.
Definition restore (d : dbl) : dbl := dbl_of_value (reread (dbl_value d)).
(** digits, point and minus sign *)
Definition numchar (c : ascii) : bool := isdigit c || Ascii.eqb c "." || Ascii.eqb c "-".
Definition numeral (s : bytes) : Prop := s <> [] /\ Forall (fun c => numchar c = true) s.
Lemma numchar_not k : numchar k = false -> forall c, numchar c = true -> c <> k.
Proof. intros H c Hc ->. congruence. Qed.
Lemma numchar_space c : numchar c = true -> isspace c = false.
Proof.
  unfold numchar. rewrite !orb_true_iff. intros [[H|H]|H]; [apply digit_space; exact H| |]; apply Ascii.eqb_eq in H; subst; reflexivity.
Qed.
Lemma digits_num s : digits s -> Forall (fun c => numchar c = true) s.
Proof. intros D. eapply Forall_impl; [|exact D]. intros c H. unfold numchar. rewrite H. reflexivity. Qed.
Lemma numeral_notin k s : numchar k = false -> numeral s -> ~ In k s.
Proof. intros K [_ N] I. rewrite Forall_forall in N. specialize (N k I). congruence. Qed.
Lemma sgn_num b : Forall (fun c => numchar c = true) (sgn b).
Proof. destruct b; repeat constructor. Qed.
Lemma print_int_num z : numeral (print_int z).
Proof.
  assert (print_int z = sgn (z <? 0) ++ print_nat (Z.abs z)) as ->.
  { unfold print_int. destruct (Z.ltb_spec z 0); simpl; [replace (Z.abs z) with (- z) by lia|replace (Z.abs z) with z by lia]; reflexivity. }
  destruct (print_nat_ok (Z.abs z) ltac:(lia)) as [_ [D Ne]]. split.
  - destruct (sgn (z <? 0)); [exact Ne|discriminate].
  - apply Forall_app. split; [apply sgn_num|apply digits_num, D].
Qed.
Lemma print_fixed_num neg n : 0 <= n -> numeral (print_fixed neg n).
Proof.
  intros Hn. rewrite print_fixed_eq. assert (0 < 10 ^ DECIMALS) as P by (apply Z.pow_pos_nonneg; unfold DECIMALS; lia).
  destruct (print_nat_ok (n / 10 ^ DECIMALS) ltac:(apply Z.div_pos; lia)) as [V [D Ne]].
  destruct (print_padded_ok (Z.to_nat DECIMALS) (n mod 10 ^ DECIMALS) [] (n / 10 ^ DECIMALS)) as [V2 [D2 L2]].
  { apply Z.mod_pos_bound. exact P. }
  { constructor. }
  split.
  - destruct (sgn neg); [|discriminate]. destruct (print_nat (n / 10 ^ DECIMALS)); [congruence|discriminate].
  - apply Forall_app. split; [apply sgn_num|]. apply Forall_app. split; [apply digits_num, D|]. constructor; [reflexivity|apply digits_num, D2].
Qed.
Lemma print_dbl_num d : fin d -> numeral (print_dbl d).
Proof.
  unfold fin, print_dbl. destruct (dbl_value d) as [s|s| |s m e]; cbn [is_finite_SF]; try discriminate; intros _; apply print_fixed_num; [lia|].
  destruct (scaled_ok m e) as [H _]. exact H.
Qed.
Lemma parse_dbl_print d t : fin d -> no_number t -> parse_dbl (print_dbl d ++ t) = Some (restore d, t).
Proof.
  intros Fd N. unfold parse_dbl, print_dbl, restore. destruct (reread_ok (dbl_value d) (dbl_value_valid d) Fd) as [_ [Fi _]]. revert Fi.
  unfold fin in Fd. destruct (dbl_value d) as [s|s| |s m e]; try discriminate; cbn [print_value reread]; intros Fi.
  - rewrite (parse_double_fixed s 0 t ltac:(lia) N); reflexivity.
  - rewrite (parse_double_fixed s (scaled_decimal m e) t (proj1 (scaled_ok m e)) N); [reflexivity|].
    destruct (b64_of_decimal s (scaled_decimal m e) (- DECIMALS)); try reflexivity; discriminate.
Qed.
Lemma parse_dbl_space t : parse_dbl (" "%char :: t) = parse_dbl t.
Proof. reflexivity. Qed.

(** ** Lines *)
Lemma getlines_fuel d f : forall f' is, (length is <= f)%nat -> (length is <= f')%nat -> getlines f d is = getlines f' d is.
Proof.
  induction f as [|f IH]; intros f' is H H'.
  - destruct is; [|simpl in H; lia]. destruct f'; reflexivity.
  - destruct f' as [|f'].
    { destruct is; [reflexivity|simpl in H'; lia]. }
    cbn [getlines]. destruct is as [|c is]; [reflexivity|]. unfold getline. destruct (split_at d (c :: is)) as [l r] eqn:E.
    apply split_at_spec in E. f_equal. apply IH.
    + destruct E as [_ [E|[_ ->]]]; [apply (f_equal (@length ascii)) in E; rewrite app_length in E; simpl in *; lia|simpl in *; lia].
    + destruct E as [_ [E|[_ ->]]]; [apply (f_equal (@length ascii)) in E; rewrite app_length in E; simpl in *; lia|simpl in *; lia].
Qed.
Lemma pieces_cons d l r : ~ In d l -> pieces d (l ++ d :: r) = l :: pieces d r.
Proof.
  intros N. unfold pieces. destruct (length (l ++ d :: r)) as [|n] eqn:E; [rewrite app_length in E; simpl in E; lia|].
  cbn [getlines]. assert (getline d (l ++ d :: r) = Some (l, r)) as ->.
  { unfold getline. rewrite split_at_some by exact N. destruct l; reflexivity. }
  f_equal. apply getlines_fuel; [|lia]. rewrite app_length in E. simpl in E. lia.
Qed.
Lemma pieces_last d l : ~ In d l -> l <> [] -> pieces d l = [l].
Proof.
  intros N Ne. unfold pieces. destruct l as [|c l]; [congruence|]. cbn [length getlines]. unfold getline. rewrite split_at_none by exact N.
  f_equal. destruct (length l); reflexivity.
Qed.
Lemma pieces_lines lines : Forall (fun l => ~ In newline l) lines -> pieces newline (flat_map (fun l => l ++ [newline]) lines) = lines.
Proof.
  intros N. induction N as [|l lines Hl N IH]; [reflexivity|]. cbn [flat_map]. rewrite <- app_assoc. cbn [app]. rewrite pieces_cons by exact Hl. rewrite IH. reflexivity.
Qed.
(** not starting / ending with a blank *)
Definition head_ok (l : bytes) : Prop := exists c t, l = c :: t /\ isspace c = false.
Definition last_ok (l : bytes) : Prop := exists t c, l = t ++ [c] /\ isspace c = false.
Lemma head_app a b : head_ok a -> head_ok (a ++ b).
Proof. intros [c [t [-> H]]]. exists c, (t ++ b). auto. Qed.
Lemma last_app a b : last_ok b -> last_ok (a ++ b).
Proof. intros [t [c [-> H]]]. exists (a ++ t), c. rewrite app_assoc. auto. Qed.
Lemma trim_id sp l : blanks sp -> head_ok l -> last_ok l -> TrimString (sp ++ l) = l.
Proof.
  intros B [c [t [E H]]] [t' [c' [E' H']]]. unfold TrimString. assert (drop_spaces (sp ++ l) = l) as ->.
  { induction B as [|b sp Hb B IH]; [subst l; cbn; rewrite H; reflexivity|]. cbn [app drop_spaces]. apply isspace_blank in Hb. rewrite Hb. exact IH. }
  rewrite E', rev_app_distr. cbn [rev app drop_spaces]. rewrite H'. cbn [rev]. rewrite rev_involutive. reflexivity.
Qed.
Lemma trim_id0 l : head_ok l -> last_ok l -> TrimString l = l.
Proof. apply (trim_id []). constructor. Qed.
Lemma num_head s : numeral s -> head_ok s.
Proof. intros [Ne N]. destruct N as [|c t Hc N]; [congruence|]. exists c, t. split; [reflexivity|apply numchar_space, Hc]. Qed.
Lemma num_last s : numeral s -> last_ok s.
Proof.
  intros [Ne N]. destruct (exists_last Ne) as [t [c E]]. exists t, c. split; [exact E|]. rewrite Forall_forall in N. apply numchar_space, N. rewrite E. apply in_or_app. right. left. reflexivity.
Qed.
Lemma one_blank : blanks [" "%char].
Proof. constructor; [|constructor]. left. reflexivity. Qed.
Lemma head_eqb l : head_ok l -> bytes_eqb l [] = false.
Proof. intros [c [t [-> _]]]. reflexivity. Qed.

(** ** Lists of knots *)
Lemma print_list_cons x y r : print_list (x :: y :: r) = print_dbl x ++ ","%char :: " "%char :: print_list (y :: r).
Proof. reflexivity. Qed.
Lemma knot_pieces sp l : (sp = [] \/ sp = [" "%char]) -> Forall fin l -> l <> [] -> map TrimString (pieces "," (sp ++ print_list l)) = map print_dbl l.
Proof.
  intros Hsp Fl. revert sp Hsp. induction Fl as [|x l Hx Fl IH]; intros sp Hsp Ne; [congruence|].
  assert (blanks sp) as B by (destruct Hsp as [->| ->]; [constructor|apply one_blank]).
  assert (~ In ","%char (sp ++ print_dbl x)) as Nc.
  { intros I. apply in_app_or in I. destruct I as [I|I]; [destruct Hsp as [->| ->]; [destruct I|destruct I as [I|[]]; discriminate]|].
    revert I. apply numeral_notin; [reflexivity|apply print_dbl_num, Hx]. }
  pose proof (print_dbl_num x Hx) as Nx.
  assert (TrimString (sp ++ print_dbl x) = print_dbl x) as T by (apply trim_id; [exact B|apply num_head, Nx|apply num_last, Nx]).
  destruct l as [|y l].
  - cbn [print_list map]. rewrite pieces_last; [cbn [map]; rewrite T; reflexivity|exact Nc|].
    destruct Nx as [Nx _]. destruct sp; [exact Nx|discriminate].
  - rewrite print_list_cons, app_assoc, pieces_cons by exact Nc. cbn [map]. rewrite T. f_equal.
    apply (IH [" "%char]); [right; reflexivity|discriminate].
Qed.
Lemma tokens_one line : tokens [line] = filter (fun t => negb (bytes_eqb t [])) (map TrimString (pieces "," line)).
Proof. unfold tokens. cbn [flat_map]. rewrite app_nil_r. reflexivity. Qed.
Lemma filter_heads l : Forall head_ok l -> filter (fun t => negb (bytes_eqb t [])) l = l.
Proof. intros H. induction H as [|a l Ha H IH]; [reflexivity|]. cbn [filter]. rewrite (head_eqb a Ha). cbn [negb]. rewrite IH. reflexivity. Qed.
Lemma knot_tokens l : Forall fin l -> l <> [] -> tokens [print_list l] = map print_dbl l.
Proof.
  intros Fl Ne. rewrite tokens_one. pose proof (knot_pieces [] l (or_introl eq_refl) Fl Ne) as E. cbn [app] in E. rewrite E. apply filter_heads.
  apply Forall_map. eapply Forall_impl; [|exact Fl]. intros d Hd. apply num_head, print_dbl_num, Hd.
Qed.
Lemma push_knots l : Forall fin l -> push_all parse_knot (map print_dbl l) = (map restore l, true).
Proof.
  intros Fl. induction Fl as [|x l Hx Fl IH]; [reflexivity|]. cbn [map push_all]. unfold parse_knot at 1.
  rewrite <- (app_nil_r (print_dbl x)). rewrite (parse_dbl_print x [] Hx I), IH. reflexivity.
Qed.
Lemma print_list_shape l : Forall fin l -> l <> [] -> head_ok (print_list l) /\ last_ok (print_list l) /\ ~ In newline (print_list l) /\
  is_key_line (print_list l) = false.
Proof.
  intros Fl Ne. assert (head_ok (print_list l) /\ is_key_line (print_list l) = false) as [A B].
  { destruct Fl as [|x l Hx Fl]; [congruence|]. pose proof (print_dbl_num x Hx) as N.
    assert (exists t, print_list (x :: l) = print_dbl x ++ t) as [t ->] by (destruct l; [exists []; rewrite app_nil_r|eexists]; reflexivity).
    split; [apply head_app, num_head, N|]. destruct N as [Nn N]. destruct (print_dbl x) as [|c w]; [congruence|]. inversion N as [|? ? Hc]; subst. cbn.
    pose proof (numchar_not "*" eq_refl c Hc) as K. apply Ascii.eqb_neq in K. rewrite K. reflexivity. }
  split; [exact A|]. cut (last_ok (print_list l) /\ ~ In newline (print_list l)); [tauto|]. clear A B.
  induction Fl as [|x l Hx Fl IH]; [congruence|]. pose proof (print_dbl_num x Hx) as N. destruct l as [|y l].
  - split; [apply num_last, N|apply numeral_notin; [reflexivity|exact N]].
  - destruct (IH ltac:(discriminate)) as [C D]. rewrite print_list_cons. split.
    + apply last_app. apply (last_app [","%char; " "%char]). exact C.
    + intros I. apply in_app_or in I. destruct I as [I|[I|[I|I]]]; [|discriminate|discriminate|exact (D I)]. revert I. apply numeral_notin; [reflexivity|exact N].
Qed.

(** ** Points *)
Definition fin4 (p : vec4 dbl) : Prop := fin (x4 p) /\ fin (y4 p) /\ fin (z4 p) /\ fin (w4 p).
Definition restore4 (p : vec4 dbl) : vec4 dbl := Vec4 (restore (x4 p)) (restore (y4 p)) (restore (z4 p)) (restore (w4 p)).
Lemma space_no_number t : no_number (" "%char :: t).
Proof. repeat split. Qed.
Lemma ReadVec4_print p : fin4 p -> ReadVec4FromText (print_point p) = Some (restore4 p).
Proof.
  intros [A [B [C D]]]. unfold ReadVec4FromText, print_point. change (str " ") with [" "%char]. cbn [app].
  rewrite (parse_dbl_print _ _ A (space_no_number _)), parse_dbl_space, (parse_dbl_print _ _ B (space_no_number _)), parse_dbl_space,
    (parse_dbl_print _ _ C (space_no_number _)), parse_dbl_space. rewrite <- (app_nil_r (print_dbl (w4 p))), (parse_dbl_print (w4 p) [] D I). reflexivity.
Qed.
Lemma print_point_shape p : fin4 p -> head_ok (print_point p) /\ last_ok (print_point p) /\ 
  (forall k, numchar k = false -> k <> " "%char -> ~ In k (print_point p)) /\ (forall t, is_key_line (print_point p ++ t) = false).
Proof.
  intros [A [B [C D]]]. pose proof (print_dbl_num _ A) as Na. pose proof (print_dbl_num _ B) as Nb. pose proof (print_dbl_num _ C) as Nc. pose proof (print_dbl_num _ D) as Nd.
  unfold print_point. split; [apply head_app, num_head, Na|]. split; [repeat apply last_app; apply num_last, Nd|]. split.
  - intros k K Ks I. repeat (apply in_app_or in I; destruct I as [I|I]); try (revert I; apply numeral_notin; assumption).
    all: destruct I as [I|[]]; congruence.
  - intros t. destruct Na as [Ne N]. destruct (print_dbl (x4 p)) as [|c w]; [congruence|]. inversion N as [|? ? Hc]; subst. cbn.
    pose proof (numchar_not "*" eq_refl c Hc) as K. apply Ascii.eqb_neq in K. rewrite K. reflexivity.
Qed.
Lemma push_points l : Forall fin4 l -> push_all ReadVec4FromText (map print_point l) = (map restore4 l, true).
Proof.
  intros Fl. induction Fl as [|x l Hx Fl IH]; [reflexivity|]. cbn [map push_all]. rewrite (ReadVec4_print x Hx), IH. reflexivity.
Qed.
Lemma point_tokens l : Forall fin4 l -> tokens (map (fun p => print_point p ++ str ",") l) = map print_point l.
Proof.
  intros Fl. unfold tokens. induction Fl as [|p l Hp Fl IH]; [reflexivity|]. cbn [map flat_map]. destruct (print_point_shape p Hp) as [H [L [N _]]].
  change (str ",") with [","%char]. rewrite pieces_cons by (apply N; [reflexivity|discriminate]). change (pieces "," []) with (@nil bytes). cbn [app map filter].
  rewrite (trim_id0 _ H L), (head_eqb _ H). cbn [negb]. f_equal. exact IH.
Qed.

(** ** The key loop *)
Section Loop.
  Context {Obj : Type} (pk : bytes -> list bytes -> Obj -> Obj * outcome unit).
  Definition plain (l : bytes) : Prop := head_ok l /\ last_ok l /\ is_key_line l = false.
  Lemma loop_plain key ls : bytes_eqb key [] = false -> Forall plain ls -> forall rest content o,
    text_loop pk (ls ++ rest) key content o = text_loop pk rest key (content ++ ls) o.
  Proof.
    intros K H. induction H as [|l ls [A [B C]] H IH]; intros rest content o; [rewrite app_nil_r; reflexivity|].
    cbn [app text_loop]. rewrite (trim_id0 l A B). cbv zeta. rewrite (head_eqb l A), C, K, IH, <- app_assoc. reflexivity.
  Qed.
  Lemma loop_knots key l : bytes_eqb key [] = false -> Forall fin l -> forall rest o,
    text_loop pk (print_list l :: rest) key [] o = text_loop pk rest key (match l with [] => [] | _ => [print_list l] end) o.
  Proof.
    intros K Fl rest o. destruct l as [|x l]; [reflexivity|]. destruct (print_list_shape (x :: l) Fl ltac:(discriminate)) as [A [B [_ C]]].
    exact (loop_plain key [print_list (x :: l)] K ltac:(constructor; [repeat split; assumption|constructor]) rest [] o).
  Qed.
  Lemma loop_key line k v key content o o' rest : TrimString line = line -> bytes_eqb line [] = false -> is_key_line line = true -> split_key line = (k, v) ->
    flush pk key content o = (o', Ok tt) ->
    text_loop pk (line :: rest) key content o = text_loop pk rest k (let c := if bytes_eqb key [] then content else [] in if bytes_eqb v [] then c else c ++ [v]) o'.
  Proof. intros A B C D E. cbn [text_loop]. rewrite A. cbv zeta. rewrite B, C, E, D. reflexivity. Qed.
End Loop.
Lemma knots_parsed l : Forall fin l -> push_all parse_knot (tokens (match l with [] => [] | _ => [print_list l] end)) = (map restore l, true).
Proof.
  intros Fl. destruct l as [|x l]; [reflexivity|]. rewrite knot_tokens by (exact Fl || discriminate). apply push_knots, Fl.
Qed.

(** ** Curves *)
Definition curve_lines (c : curve dbl) : list bytes :=
  [str "*Degree: " ++ print_int (Degree c); str "*Knots:"; print_list (Knots c); str "*ControlPoints:"]
  ++ map (fun p => print_point p ++ str ",") (ControlPoints c).
Lemma flat_map_map {A B C} (f : B -> list C) (g : A -> B) l : flat_map f (map g l) = flat_map (fun a => f (g a)) l.
Proof. induction l as [|a l IH]; [reflexivity|]. cbn [map flat_map]. rewrite IH. reflexivity. Qed.
Lemma Curve_Save_txt c : Curve_SaveToFile c false = header false "CURVE" ++ flat_map (fun l => l ++ [newline]) (curve_lines c).
Proof.
  unfold Curve_SaveToFile, curve_lines. f_equal. rewrite flat_map_app, flat_map_map. cbn [flat_map]. rewrite app_nil_r, <- !app_assoc. do 9 f_equal.
  apply flat_map_ext. intros p. rewrite <- app_assoc. reflexivity.
Qed.
Definition curve_fin (c : curve dbl) : Prop := Forall fin (Knots c) /\ Forall fin4 (ControlPoints c).
Definition restore_curve (c : curve dbl) : curve dbl := Curve (Degree c) (map restore (Knots c)) (map restore4 (ControlPoints c)).
Lemma key_num_line (k : string) z : head_ok (str k ++ print_int z) -> TrimString (str k ++ print_int z) = str k ++ print_int z.
Proof. intros H. apply trim_id0; [exact H|]. apply last_app, num_last, print_int_num. Qed.
Lemma knots_nl l : Forall fin l -> ~ In newline (print_list l).
Proof. intros Fl. destruct l as [|x l]; [intros []|]. apply print_list_shape; [exact Fl|discriminate]. Qed.
Lemma str_nl k : existsb (Ascii.eqb newline) k = false -> ~ In newline k.
Proof. intros H I. assert (existsb (Ascii.eqb newline) k = true) as E; [|congruence]. apply existsb_exists. exists newline. split; [exact I|reflexivity]. Qed.
Lemma key_num_nl k z : existsb (Ascii.eqb newline) k = false -> ~ In newline (k ++ print_int z).
Proof.
  intros H I. apply in_app_or in I. destruct I as [I|I]; [exact (str_nl k H I)|]. revert I. apply numeral_notin; [reflexivity|apply print_int_num].
Qed.
Lemma curve_lines_nl c : curve_fin c -> Forall (fun l => ~ In newline l) (curve_lines c).
Proof.
  intros [Fk Fp]. unfold curve_lines. apply Forall_app. split.
  - constructor; [apply key_num_nl; reflexivity|]. constructor; [apply str_nl; reflexivity|]. constructor; [apply knots_nl, Fk|]. constructor; [apply str_nl; reflexivity|constructor].
  - apply Forall_map. eapply Forall_impl; [|exact Fp]. intros p Hp I. apply in_app_or in I. destruct I as [I|[I|[]]]; [|discriminate].
    revert I. apply (print_point_shape p Hp); [reflexivity|discriminate].
Qed.
Lemma split_key_num k kw z : split_at ":" k = (kw, [" "%char]) -> In ":"%char k ->
  split_key ("*"%char :: k ++ print_int z) = (TrimString kw, print_int z).
Proof.
  intros E Ic. unfold split_key. apply split_at_spec in E. destruct E as [N [E|[E _]]].
  - rewrite E, <- app_assoc. cbn [app]. rewrite split_at_some by exact N. f_equal. apply (trim_id [" "%char]); [apply one_blank|apply num_head, print_int_num|apply num_last, print_int_num].
  - subst kw. contradiction.
Qed.
Lemma C60_load (c prior : curve dbl) : fits_int (Degree c) = true -> curve_fin c -> Knots prior = [] -> ControlPoints prior = [] ->
  Curve_LoadFromFile prior (Curve_SaveToFile c false) = (restore_curve c, Ok tt).
Proof.
  intros Fd Fc K0 P0. unfold Curve_LoadFromFile. rewrite Curve_Save_txt, header_curve. unfold Curve_load_txt. rewrite pieces_lines by (apply curve_lines_nl, Fc).
  destruct Fc as [Fk Fp]. unfold curve_lines. cbn [app].
  rewrite (loop_key _ _ (str "Degree") (print_int (Degree c)) _ _ _ prior).
  2: { apply key_num_line. eexists. eexists. split; reflexivity. }
  2: { reflexivity. }
  2: { reflexivity. }
  2: { exact (split_key_num (str "Degree: ") (str "Degree") (Degree c) eq_refl ltac:(cbn; auto 12)). }
  2: { reflexivity. }
  cbv zeta. rewrite (head_eqb _ (num_head _ (print_int_num (Degree c)))). change (bytes_eqb [] []) with true. cbv iota. cbn [app].
  rewrite (loop_key _ (str "*Knots:") (str "Knots") [] _ _ _ (Curve (Degree c) [] [])).
  2-4: reflexivity. 2: reflexivity.
  2: { unfold flush. cbn [bytes_eqb str list_ascii_of_string]. unfold Curve_process_key. rewrite bytes_eqb_refl.
       rewrite <- (app_nil_r (print_int (Degree c))), (parse_int_print (Degree c) [] Fd I), K0, P0. reflexivity. }
  change (let c0 := _ in _) with (@nil bytes).
  rewrite loop_knots by (reflexivity || exact Fk).
  rewrite (loop_key _ (str "*ControlPoints:") (str "ControlPoints") [] _ _ _ (Curve (Degree c) (map restore (Knots c)) [])).
  2-4: reflexivity. 2: reflexivity.
  2: { unfold flush. change (bytes_eqb (str "Knots") []) with false. cbv iota. unfold Curve_process_key. change (bytes_eqb (str "Knots") (str "Degree")) with false. cbv iota.
       rewrite bytes_eqb_refl, (knots_parsed _ Fk). reflexivity. }
  change (let c0 := _ in _) with (@nil bytes).
  rewrite <- (app_nil_r (map _ (ControlPoints c))), loop_plain; [|reflexivity|].
  - cbn [text_loop app]. unfold flush. change (bytes_eqb (str "ControlPoints") []) with false. cbv iota. unfold Curve_process_key.
    change (bytes_eqb (str "ControlPoints") (str "Degree")) with false. change (bytes_eqb (str "ControlPoints") (str "Knots")) with false. cbv iota.
    rewrite bytes_eqb_refl, (point_tokens _ Fp), (push_points _ Fp). reflexivity.
  - apply Forall_map. eapply Forall_impl; [|exact Fp]. intros p Hp. destruct (print_point_shape p Hp) as [A [_ [_ D]]]. split; [apply head_app, A|]. split; [|apply D].
    exists (print_point p), ","%char. split; reflexivity.
Qed.
