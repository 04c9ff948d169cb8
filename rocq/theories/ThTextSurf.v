(** Text files of surfaces, and the property lemmas of C60 and C61. *)
From Coq Require Import List ZArith Lia Bool Ascii String Reals.
From Coq Require Import Floats.SpecFloat.
From Flocq Require Import Core IEEE754.BinarySingleNaN.
From Verif Require Import Outcome Num ModelCore ModelCurve ModelSurface ModelSerial SpecSerial SpecText ThOutcome ThVec ThSerial ThSerial2 ThText ThTextNum ThTextBits ThTextFile.
Import ListNotations.
Open Scope Z_scope.

(** ** The rows of the grid, one after the other, are its values *)
Lemma firstn_plus {A} a b (l : list A) : firstn (a + b) l = firstn a l ++ firstn b (skipn a l).
Proof. revert l. induction a as [|a IH]; intros l; [reflexivity|]. destruct l as [|x l]; [cbn; rewrite firstn_nil; reflexivity|]. cbn. rewrite IH. reflexivity. Qed.
Lemma skipn_plus {A} a b (l : list A) : skipn b (skipn a l) = skipn (a + b) l.
Proof. revert l. induction a as [|a IH]; intros l; [reflexivity|]. destruct l as [|x l]; [cbn; apply skipn_nil|]. cbn. apply IH. Qed.
Lemma concat_rows {A} (vals : list A) U n : forall lo, 0 <= U -> 0 <= lo ->
  List.concat (map (fun v => firstn (Z.to_nat U) (skipn (Z.to_nat (v * U)) vals)) (zrange lo (lo + Z.of_nat n))) = firstn (Z.to_nat (Z.of_nat n * U)) (skipn (Z.to_nat (lo * U)) vals).
Proof.
  induction n as [|n IH]; intros lo HU Hlo.
  - rewrite zrange_empty by lia. reflexivity.
  - rewrite zrange_first by lia. cbn [map List.concat]. replace (lo + Z.of_nat (S n)) with (lo + 1 + Z.of_nat n) by lia. rewrite IH by lia.
    assert (0 <= lo * U) by (apply Z.mul_nonneg_nonneg; lia). assert (0 <= Z.of_nat n * U) by (apply Z.mul_nonneg_nonneg; lia).
    replace (Z.to_nat (Z.of_nat (S n) * U)) with (Z.to_nat U + Z.to_nat (Z.of_nat n * U))%nat by nia.
    rewrite firstn_plus, skipn_plus. replace (Z.to_nat (lo * U) + Z.to_nat U)%nat with (Z.to_nat ((lo + 1) * U)) by nia. reflexivity.
Qed.
Lemma grid_rows {A} (g : grid A) : 0 <= UCount g -> 0 <= VCount g -> len (Values g) = UCount g * VCount g ->
  exists rows, tabulate 0 (VCount g) (fun v => tabulate 0 (UCount g) (fun u => Grid_Get g u v)) = Ok rows /\ List.concat rows = Values g.
Proof.
  intros HU HV L. exists (map (fun v => firstn (Z.to_nat (UCount g)) (skipn (Z.to_nat (v * UCount g)) (Values g))) (zrange 0 (VCount g))). split.
  - apply tabulate_ok. intros v Hv. assert (0 <= v * UCount g) by (apply Z.mul_nonneg_nonneg; lia). assert ((v + 1) * UCount g <= VCount g * UCount g) by (apply Z.mul_le_mono_nonneg_r; lia).
    assert (UCount g <= len (skipn (Z.to_nat (v * UCount g)) (Values g))) as Lb.
    { rewrite len_skipn, L. lia. }
    rewrite <- (tabulate_vget _ (UCount g)) by lia. rewrite (tabulate_vget _ (UCount g)) by lia.
    destruct (skipn (Z.to_nat (v * UCount g)) (Values g)) as [|d r] eqn:E.
    { assert (UCount g = 0) as U0 by (unfold len in Lb; cbn in Lb; lia). rewrite U0. reflexivity. }
    rewrite (tabulate_ok 0 (UCount g) _ (fun u => znth d (d :: r) u)).
    + rewrite <- (tabulate_vget (d :: r) (UCount g)) by lia. symmetry. apply tabulate_ok. intros i Hi. apply vget_ok. lia.
    + intros u Hu. unfold Grid_Get. destruct (Z.ltb_spec u (UCount g)); [|lia]. destruct (Z.ltb_spec v (VCount g)); [|lia]. cbn [andb assert_ bind].
      rewrite <- (vget_skipn (Values g) (v * UCount g) u) by lia. rewrite E. apply vget_ok. lia.
  - pose proof (concat_rows (Values g) (UCount g) (Z.to_nat (VCount g)) 0 HU ltac:(lia)) as C. rewrite Z2Nat.id, Z.add_0_l in C by lia. rewrite C.
    cbn [Z.mul Z.to_nat skipn]. apply firstn_all2. unfold len in L. rewrite Z.mul_comm in L. lia.
Qed.

(** ** Surfaces *)
Definition surface_lines (s : surface dbl) : list bytes :=
  [str "*DegreeU: " ++ print_int (DegreeU s); str "*DegreeV: " ++ print_int (DegreeV s); str "*KnotsU:"; print_list (KnotsU s); str "*KnotsV:"; print_list (KnotsV s);
   str "*ControlPoints:"; print_int (UCount (Net s)) ++ str " " ++ print_int (VCount (Net s))]
  ++ map print_point (Values (Net s)).
Lemma Surface_Save_txt s : 0 <= UCount (Net s) -> 0 <= VCount (Net s) -> len (Values (Net s)) = UCount (Net s) * VCount (Net s) ->
  Surface_SaveToFile s false = Ok (header false "SURFACE" ++ flat_map (fun l => l ++ [newline]) (surface_lines s)).
Proof.
  intros HU HV L. destruct (grid_rows (Net s) HU HV L) as [rows [E C]]. unfold Surface_SaveToFile. rewrite E. cbn [bind]. rewrite C. f_equal.
  unfold surface_lines. f_equal. rewrite flat_map_app, flat_map_map. cbn [flat_map]. rewrite app_nil_r, <- !app_assoc. reflexivity.
Qed.
Definition surface_fin (s : surface dbl) : Prop := Forall fin (KnotsU s) /\ Forall fin (KnotsV s) /\ Forall fin4 (Values (Net s)).
Definition restore_surface (s : surface dbl) : surface dbl :=
  Surface (DegreeU s) (DegreeV s) (map restore (KnotsU s)) (map restore (KnotsV s)) (Grid (UCount (Net s)) (VCount (Net s)) (map restore4 (Values (Net s)))).
Lemma dims_shape a b : plain (print_int a ++ str " " ++ print_int b) /\ ~ In newline (print_int a ++ str " " ++ print_int b).
Proof.
  pose proof (print_int_num a) as Na. pose proof (print_int_num b) as Nb. split; [split; [apply head_app, num_head, Na|split; [repeat apply last_app; apply num_last, Nb|]]|].
  - destruct Na as [Ne N]. destruct (print_int a) as [|c w]; [congruence|]. inversion N as [|? ? Hc]; subst. cbn.
    pose proof (numchar_not "*" eq_refl c Hc) as K. apply Ascii.eqb_neq in K. rewrite K. reflexivity.
  - intros I. apply in_app_or in I. destruct I as [I|[I|I]]; [revert I; apply numeral_notin; [reflexivity|exact Na]|discriminate|revert I; apply numeral_notin; [reflexivity|exact Nb]].
Qed.
Lemma surface_lines_nl s : surface_fin s -> Forall (fun l => ~ In newline l) (surface_lines s).
Proof.
  intros [Fu [Fv Fp]]. unfold surface_lines. apply Forall_app. split.
  - constructor; [apply key_num_nl; reflexivity|]. constructor; [apply key_num_nl; reflexivity|]. constructor; [apply str_nl; reflexivity|]. constructor; [apply knots_nl, Fu|].
    constructor; [apply str_nl; reflexivity|]. constructor; [apply knots_nl, Fv|]. constructor; [apply str_nl; reflexivity|]. constructor; [apply dims_shape|constructor].
  - apply Forall_map. eapply Forall_impl; [|exact Fp]. intros p Hp. apply (print_point_shape p Hp); [reflexivity|discriminate].
Qed.
Lemma parse_int_space t : parse_int (" "%char :: t) = parse_int t.
Proof. reflexivity. Qed.
Lemma flush_eq {Obj} (pk : bytes -> list bytes -> Obj -> Obj * outcome unit) key content o : bytes_eqb key [] = false -> flush pk key content o = pk key content o.
Proof. intros K. unfold flush. rewrite K. reflexivity. Qed.
Lemma print_int_head z : bytes_eqb (print_int z) [] = false.
Proof. apply head_eqb, num_head, print_int_num. Qed.
Lemma parse_int_all z : fits_int z = true -> parse_int (print_int z) = Some (z, []).
Proof. intros H. rewrite <- (app_nil_r (print_int z)). apply (parse_int_print z [] H I). Qed.
Ltac key_reduce := repeat match goal with |- context [bytes_eqb (str ?a) (str ?b)] => let v := eval vm_compute in (bytes_eqb (str a) (str b)) in change (bytes_eqb (str a) (str b)) with v end; cbv iota.
Lemma key_points (s : surface dbl) pts uc vc : fits_int uc = true -> fits_int vc = true -> fits_int (uc * vc) = true -> 0 < uc -> 0 < vc -> len pts = uc * vc -> Forall fin4 pts ->
  Surface_process_key (str "ControlPoints") ((print_int uc ++ str " " ++ print_int vc) :: map print_point pts) s = (set_net s (Grid uc vc (map restore4 pts)), Ok tt).
Proof.
  intros Fu Fv Fuv Pu Pv L Fp. unfold Surface_process_key. key_reduce. change (str " " ++ print_int vc) with (" "%char :: print_int vc).
  rewrite (parse_int_print uc _ Fu) by reflexivity. cbv zeta. rewrite parse_int_space, (parse_int_all vc Fv).
  destruct (Z.leb_spec uc 0); [lia|]. destruct (Z.leb_spec vc 0); [lia|]. cbn [orb]. rewrite Fuv. cbn [negb]. rewrite len_map, L, Z.eqb_refl. cbn [negb].
  rewrite (push_points pts Fp). reflexivity.
Qed.
Lemma C61_load (s prior : surface dbl) : fits_int (DegreeU s) = true -> fits_int (DegreeV s) = true -> surface_fin s -> KnotsU prior = [] -> KnotsV prior = [] ->
  fits_int (UCount (Net s)) = true -> fits_int (VCount (Net s)) = true -> fits_int (UCount (Net s) * VCount (Net s)) = true ->
  0 < UCount (Net s) -> 0 < VCount (Net s) -> len (Values (Net s)) = UCount (Net s) * VCount (Net s) ->
  Surface_LoadFromFile prior (header false "SURFACE" ++ flat_map (fun l => l ++ [newline]) (surface_lines s)) = (restore_surface s, Ok tt).
Proof.
  intros Fdu Fdv Fs KU KV Fu Fv Fuv Pu Pv L. unfold Surface_LoadFromFile. rewrite header_surface. unfold Surface_load_txt. rewrite pieces_lines by (apply surface_lines_nl, Fs).
  destruct Fs as [Fku [Fkv Fp]]. unfold surface_lines. cbn [app].
  rewrite (loop_key _ _ (str "DegreeU") (print_int (DegreeU s)) _ _ _ prior).
  2: { apply key_num_line. eexists. eexists. split; reflexivity. }
  2-3: reflexivity.
  2: { exact (split_key_num (str "DegreeU: ") (str "DegreeU") (DegreeU s) eq_refl ltac:(cbn; auto 12)). }
  2: { reflexivity. }
  cbv zeta. rewrite print_int_head. change (bytes_eqb [] []) with true. cbv iota. cbn [app].
  rewrite (loop_key _ _ (str "DegreeV") (print_int (DegreeV s)) _ _ _ (Surface (DegreeU s) (DegreeV prior) [] [] (Net prior))).
  2: { apply key_num_line. eexists. eexists. split; reflexivity. }
  2-3: reflexivity.
  2: { exact (split_key_num (str "DegreeV: ") (str "DegreeV") (DegreeV s) eq_refl ltac:(cbn; auto 12)). }
  2: { rewrite flush_eq by reflexivity. unfold Surface_process_key. key_reduce. rewrite (parse_int_all _ Fdu), KU, KV. reflexivity. }
  cbv zeta. rewrite print_int_head. change (bytes_eqb (str "DegreeU") []) with false. cbv iota. cbn [app].
  rewrite (loop_key _ (str "*KnotsU:") (str "KnotsU") [] _ _ _ (Surface (DegreeU s) (DegreeV s) [] [] (Net prior))).
  2-5: reflexivity.
  2: { rewrite flush_eq by reflexivity. unfold Surface_process_key. key_reduce. rewrite (parse_int_all _ Fdv). reflexivity. }
  change (let c0 := _ in _) with (@nil bytes). rewrite loop_knots by (reflexivity || exact Fku).
  rewrite (loop_key _ (str "*KnotsV:") (str "KnotsV") [] _ _ _ (Surface (DegreeU s) (DegreeV s) (map restore (KnotsU s)) [] (Net prior))).
  2-5: reflexivity.
  2: { rewrite flush_eq by reflexivity. unfold Surface_process_key. key_reduce. rewrite (knots_parsed _ Fku). reflexivity. }
  change (let c0 := _ in _) with (@nil bytes). rewrite loop_knots by (reflexivity || exact Fkv).
  rewrite (loop_key _ (str "*ControlPoints:") (str "ControlPoints") [] _ _ _ (Surface (DegreeU s) (DegreeV s) (map restore (KnotsU s)) (map restore (KnotsV s)) (Net prior))).
  2-5: reflexivity.
  2: { rewrite flush_eq by reflexivity. unfold Surface_process_key. key_reduce. rewrite (knots_parsed _ Fkv). reflexivity. }
  change (let c0 := _ in _) with (@nil bytes).
  set (ls := (print_int (UCount (Net s)) ++ str " " ++ print_int (VCount (Net s))) :: map print_point (Values (Net s))).
  rewrite <- (app_nil_r ls), loop_plain; [|reflexivity|].
  - cbn [text_loop app]. rewrite flush_eq by reflexivity. unfold ls. rewrite key_points by assumption. reflexivity.
  - unfold ls. constructor; [apply dims_shape|]. apply Forall_map. eapply Forall_impl; [|exact Fp]. intros p Hp. destruct (print_point_shape p Hp) as [A [B [_ D]]].
    split; [exact A|]. split; [exact B|]. specialize (D []). rewrite app_nil_r in D. exact D.
Qed.

(** ** In terms of the specification *)
Lemma pattern_bits d : pattern d = dbl_bits d.
Proof.
  unfold pattern, dbl_bits, dbl_bytes. cbn [le_Z]. change byte_value with Z_of_byte. change (2 ^ 8) with 256. change (2 ^ 16) with 65536. change (2 ^ 24) with 16777216.
  change (2 ^ 32) with 4294967296. change (2 ^ 40) with 1099511627776. change (2 ^ 48) with 281474976710656. change (2 ^ 56) with 72057594037927936. ring.
Qed.
Lemma spec_value d : (finite_dbl d <-> fin d) /\ (fin d -> real_of d = SF2R radix2 (dbl_value d)) /\ (fin d -> (negative d <-> sign_SF (dbl_value d) = true)).
Proof.
  unfold finite_dbl, fin, real_of, magnitude, negative, exponent_field, fraction_field, dbl_value. rewrite pattern_bits. pose proof (dbl_bits_range d) as Rz. set (z := dbl_bits d) in *.
  unfold bits_value. pose proof (Z.mod_pos_bound z (2 ^ 52) eq_refl) as Bm. pose proof (Z.mod_pos_bound (z / 2 ^ 52) (2 ^ 11) eq_refl) as Be.
  set (m := z mod 2 ^ 52) in *. set (e := (z / 2 ^ 52) mod 2 ^ 11) in *. rewrite <- Z.leb_antisym.
  assert ((2 ^ 63 <=? z) = true <-> 2 ^ 63 <= z) as S by (rewrite Z.leb_le; tauto). set (s := 2 ^ 63 <=? z) in *.
  destruct (Z.eqb_spec e 0) as [E0|E0].
  { split; [split; [intros _; destruct m; reflexivity|intros _; lia]|]. destruct m as [|p|p] eqn:Em; [..|lia]; cbn [sign_SF].
    - split; [|tauto]. intros _. cbn [SF2R]. rewrite Rmult_0_l. destruct s; [apply Ropp_0|reflexivity].
    - split; [|tauto]. intros _. cbn [SF2R]. rewrite F2R_cond_Zopp. destruct s; reflexivity. }
  destruct (Z.eqb_spec e 2047) as [E1|E1].
  { split; [split; [congruence|]; destruct (m =? 0); discriminate|]. destruct (m =? 0); split; discriminate. }
  destruct (m + 2 ^ 52) as [|p|p] eqn:Em; [lia| |lia]. cbn [is_finite_SF sign_SF SF2R]. split; [split; [reflexivity|intros _; exact E1]|]. split; [|tauto].
  intros _. rewrite F2R_cond_Zopp, Z.add_comm, Em. destruct s; reflexivity.
Qed.
Lemma restored_ok d : finite_dbl d -> restored d (restore d).
Proof.
  intros Fd. apply spec_value in Fd. destruct (reread_ok (dbl_value d) (dbl_value_valid d) Fd) as [V [Fi [Sg [Vl Ex]]]].
  assert (dbl_value (restore d) = reread (dbl_value d)) as Ev by (apply dbl_value_of, V).
  assert (fin (restore d)) as Fr by (unfold fin; rewrite Ev; exact Fi).
  destruct (spec_value d) as [_ [Rd Nd]]. destruct (spec_value (restore d)) as [F' [Rd' Nd']]. split; [apply F', Fr|]. split.
  - rewrite (Nd Fd), (Nd' Fr), Ev, Sg. tauto.
  - split.
    + rewrite (Rd' Fr), (Rd Fd), Ev. exact Vl.
    + intros H. rewrite (Rd Fd) in H. specialize (Ex H). unfold restore. rewrite Ex. apply dbl_of_value_of, Fd.
Qed.
Lemma Forall_fin l : Forall finite_dbl l -> Forall fin l.
Proof. apply Forall_impl. intros d. apply spec_value. Qed.
Lemma Forall_fin4 l : Forall (on_coords finite_dbl) l -> Forall fin4 l.
Proof. apply Forall_impl. intros p [A [B [C D]]]. repeat split; apply spec_value; assumption. Qed.
Lemma Forall2_map_r {A B} (P : A -> B -> Prop) (Q : A -> Prop) f l : (forall a, Q a -> P a (f a)) -> Forall Q l -> Forall2 P l (map f l).
Proof. intros H F. induction F; constructor; auto. Qed.
Lemma C60_lemma (c prior : curve dbl) : INT_MIN <= Degree c <= INT_MAX -> Forall finite_dbl (Knots c) -> Forall (on_coords finite_dbl) (ControlPoints c) ->
  Knots prior = [] -> ControlPoints prior = [] ->
  exists c', Curve_LoadFromFile prior (Curve_SaveToFile c false) = (c', Ok tt) /\ Degree c' = Degree c /\
    Forall2 restored (Knots c) (Knots c') /\ Forall2 restored4 (ControlPoints c) (ControlPoints c').
Proof.
  intros Hd Fk Fp K0 P0. exists (restore_curve c). split; [|split; [reflexivity|split]].
  - apply C60_load; auto.
    + unfold fits_int. lia.
    + split; [apply Forall_fin, Fk|apply Forall_fin4, Fp].
  - apply (Forall2_map_r _ finite_dbl); [exact restored_ok|exact Fk].
  - apply (Forall2_map_r _ (on_coords finite_dbl)); [|exact Fp]. intros p [A [B [C D]]]. repeat split; apply restored_ok; assumption.
Qed.
Lemma Forall2_exact l l' : Forall text_exact l -> Forall2 restored l l' -> l' = l.
Proof. intros F H. induction H as [|a b l l' R H IH]; [reflexivity|]. inversion F as [|? ? [Fa Ea] F']; subst. f_equal; [apply R, Ea|apply IH, F']. Qed.
Lemma Forall2_exact4 l l' : Forall (on_coords text_exact) l -> Forall2 restored4 l l' -> l' = l.
Proof.
  intros F H. induction H as [|a b l l' R H IH]; [reflexivity|]. inversion F as [|? ? E F']; subst. f_equal; [|apply IH, F'].
  destruct R as [R1 [R2 [R3 R4]]], E as [[_ E1] [[_ E2] [[_ E3] [_ E4]]]]. destruct a, b. cbn in *. f_equal; [apply R1, E1|apply R2, E2|apply R3, E3|apply R4, E4].
Qed.
Lemma exact_fin l : Forall text_exact l -> Forall finite_dbl l.
Proof. apply Forall_impl. intros d [H _]. exact H. Qed.
Lemma exact_fin4 l : Forall (on_coords text_exact) l -> Forall (on_coords finite_dbl) l.
Proof. apply Forall_impl. intros p [[A _] [[B _] [[C _] [D _]]]]. repeat split; assumption. Qed.
Lemma C60_exact_lemma (c prior : curve dbl) : INT_MIN <= Degree c <= INT_MAX -> Forall text_exact (Knots c) -> Forall (on_coords text_exact) (ControlPoints c) ->
  Knots prior = [] -> ControlPoints prior = [] -> Curve_LoadFromFile prior (Curve_SaveToFile c false) = (c, Ok tt).
Proof.
  intros Hd Fk Fp K0 P0. destruct (C60_lemma c prior Hd (exact_fin _ Fk) (exact_fin4 _ Fp) K0 P0) as [c' [-> [D [K P]]]]. f_equal.
  apply Forall2_exact in K; [|exact Fk]. apply Forall2_exact4 in P; [|exact Fp]. destruct c, c'. cbn in *. subst. reflexivity.
Qed.
Lemma C61_lemma (s : surface dbl) : INT_MIN <= DegreeU s <= INT_MAX -> INT_MIN <= DegreeV s <= INT_MAX ->
  Forall finite_dbl (KnotsU s) -> Forall finite_dbl (KnotsV s) -> Forall (on_coords finite_dbl) (Values (Net s)) ->
  0 < UCount (Net s) -> 0 < VCount (Net s) -> len (Values (Net s)) = UCount (Net s) * VCount (Net s) -> len (Values (Net s)) <= INT_MAX ->
  exists file, Surface_SaveToFile s false = Ok file /\ forall prior, KnotsU prior = [] -> KnotsV prior = [] ->
    exists s', Surface_LoadFromFile prior file = (s', Ok tt) /\ DegreeU s' = DegreeU s /\ DegreeV s' = DegreeV s /\
      UCount (Net s') = UCount (Net s) /\ VCount (Net s') = VCount (Net s) /\
      Forall2 restored (KnotsU s) (KnotsU s') /\ Forall2 restored (KnotsV s) (KnotsV s') /\ Forall2 restored4 (Values (Net s)) (Values (Net s')).
Proof.
  intros Hu Hv Fu Fv Fp Pu Pv L LM. eexists. split; [apply Surface_Save_txt; lia|]. intros prior KU KV. exists (restore_surface s).
  assert (UCount (Net s) <= UCount (Net s) * VCount (Net s)) by nia. assert (VCount (Net s) <= UCount (Net s) * VCount (Net s)) by nia.
  split; [|split; [reflexivity|split; [reflexivity|split; [reflexivity|split; [reflexivity|]]]]].
  - apply C61_load; auto; try (unfold fits_int, INT_MIN, INT_MAX in *; lia). split; [apply Forall_fin, Fu|split; [apply Forall_fin, Fv|apply Forall_fin4, Fp]].
  - split; [|split].
    + apply (Forall2_map_r _ finite_dbl); [exact restored_ok|exact Fu].
    + apply (Forall2_map_r _ finite_dbl); [exact restored_ok|exact Fv].
    + apply (Forall2_map_r _ (on_coords finite_dbl)); [|exact Fp]. intros p [A [B [C D]]]. repeat split; apply restored_ok; assumption.
Qed.
Lemma C61_exact_lemma (s : surface dbl) : INT_MIN <= DegreeU s <= INT_MAX -> INT_MIN <= DegreeV s <= INT_MAX ->
  Forall text_exact (KnotsU s) -> Forall text_exact (KnotsV s) -> Forall (on_coords text_exact) (Values (Net s)) ->
  0 < UCount (Net s) -> 0 < VCount (Net s) -> len (Values (Net s)) = UCount (Net s) * VCount (Net s) -> len (Values (Net s)) <= INT_MAX ->
  exists file, Surface_SaveToFile s false = Ok file /\ forall prior, KnotsU prior = [] -> KnotsV prior = [] -> Surface_LoadFromFile prior file = (s, Ok tt).
Proof.
  intros Hu Hv Fu Fv Fp Pu Pv L LM.
  destruct (C61_lemma s Hu Hv (exact_fin _ Fu) (exact_fin _ Fv) (exact_fin4 _ Fp) Pu Pv L LM) as [file [E H']]. exists file. split; [exact E|].
  intros prior KU KV. destruct (H' prior KU KV) as [s' [-> [D1 [D2 [N1 [N2 [K1 [K2 P]]]]]]]]. f_equal.
  apply Forall2_exact in K1; [|exact Fu]. apply Forall2_exact in K2; [|exact Fv]. apply Forall2_exact4 in P; [|exact Fp].
  destruct s as [a b c d [e f g]], s' as [a' b' c' d' [e' f' g']]. cbn in *. subst. reflexivity.
Qed.
