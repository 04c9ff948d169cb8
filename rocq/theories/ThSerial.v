(** Binary serialization: codecs, round trips, truncated files, headers. *)
From Coq Require Import List ZArith Lia Bool Ascii String.
From Verif Require Import Outcome Num ModelCore ModelCurve ModelSurface ModelSerial ThOutcome.
Import ListNotations.
Open Scope Z_scope.
Notation length := List.length.

(** ** Integers *)
Lemma Z_of_byte_range b : 0 <= Z_of_byte b < 256.
Proof. unfold Z_of_byte. pose proof (N_ascii_bounded b). lia. Qed.
Lemma Z_of_byte_of z : Z_of_byte (byte_of z) = z mod 256.
Proof.
  unfold Z_of_byte, byte_of. pose proof (Z.mod_pos_bound z 256 ltac:(lia)) as B.
  rewrite N_ascii_embedding by lia. lia.
Qed.
Lemma byte_of_Z_of b : byte_of (Z_of_byte b) = b.
Proof.
  unfold byte_of. rewrite Z.mod_small by apply Z_of_byte_range. unfold Z_of_byte. rewrite N2Z.id. apply ascii_N_embedding.
Qed.
Lemma length_le_bytes n z : length (le_bytes n z) = n.
Proof. revert z. induction n; intros z; simpl; [reflexivity|]. f_equal. apply IHn. Qed.
Lemma le_Z_bytes n z : 0 <= z < 256 ^ Z.of_nat n -> le_Z (le_bytes n z) = z.
Proof.
  revert z. induction n as [|n IH]; intros z Hz.
  - simpl in *. lia.
  - rewrite Nat2Z.inj_succ, Z.pow_succ_r in Hz by lia. cbn [le_bytes le_Z]. rewrite Z_of_byte_of, IH.
    + pose proof (Z.div_mod z 256 ltac:(lia)). lia.
    + split; [apply Z.div_pos; lia|]. apply Z.div_lt_upper_bound; lia.
Qed.
Lemma length_int_bytes z : length (int_bytes z) = 4%nat.
Proof. apply length_le_bytes. Qed.
Lemma fits_bounds z : fits_int z = true -> - 2 ^ 31 <= z < 2 ^ 31.
Proof. unfold fits_int, INT_MIN, INT_MAX. rewrite andb_true_iff, !Z.leb_le. lia. Qed.
Lemma int_of_int_bytes z : fits_int z = true -> int_of_bytes (int_bytes z) = z.
Proof.
  intros F. apply fits_bounds in F. unfold int_of_bytes, int_bytes. pose proof (Z.mod_pos_bound z (2 ^ 32) ltac:(lia)) as B.
  rewrite le_Z_bytes by (change (256 ^ Z.of_nat 4) with (2 ^ 32); exact B).
  destruct (Z.ltb_spec (z mod 2 ^ 32) (2 ^ 31)) as [L|L].
  - destruct (Z_lt_ge_dec z 0).
    + replace (z mod 2 ^ 32) with (z + 2 ^ 32) in * by (apply Z.mod_unique with (-1); lia). lia.
    + rewrite Z.mod_small in * by lia. lia.
  - destruct (Z_lt_ge_dec z 0).
    + replace (z mod 2 ^ 32) with (z + 2 ^ 32) in * by (apply Z.mod_unique with (-1); lia). lia.
    + rewrite Z.mod_small in * by lia. lia.
Qed.
Lemma wrap_int_id z : fits_int z = true -> wrap_int z = z.
Proof.
  intros F. rewrite <- (int_of_int_bytes z F) at 2. apply fits_bounds in F. unfold wrap_int, int_of_bytes, int_bytes.
  pose proof (Z.mod_pos_bound z (2 ^ 32) ltac:(lia)). rewrite le_Z_bytes by (change (256 ^ Z.of_nat 4) with (2 ^ 32); assumption). reflexivity.
Qed.

(** ** Reading *)
Lemma read_n_app n a r : length a = n -> read_n n (a ++ r) = Some (a, r).
Proof.
  intros <-. unfold read_n. rewrite app_length. destruct (Nat.leb_spec (length a) (length a + length r)); [|lia].
  rewrite firstn_app, firstn_all, Nat.sub_diag, firstn_O, app_nil_r. rewrite skipn_app, skipn_all, Nat.sub_diag. reflexivity.
Qed.
Lemma read_int_app z r : fits_int z = true -> read_int (int_bytes z ++ r) = Some (z, r).
Proof. intros F. unfold read_int. rewrite read_n_app by apply length_int_bytes. rewrite int_of_int_bytes by exact F. reflexivity. Qed.
Lemma dbl_of_dbl_bytes d : dbl_of_list (dbl_bytes d) = d.
Proof. destruct d. reflexivity. Qed.
Lemma read_dbl_app d r : read_dbl (dbl_bytes d ++ r) = Some (d, r).
Proof. unfold read_dbl. rewrite read_n_app by reflexivity. rewrite dbl_of_dbl_bytes. reflexivity. Qed.
Lemma read_dbls_app l r : read_dbls (length l) (flat_map dbl_bytes l ++ r) = Some (l, r).
Proof.
  induction l as [|d l IH]; [reflexivity|]. cbn [length flat_map read_dbls]. rewrite <- app_assoc, read_dbl_app, IH. reflexivity.
Qed.
Lemma ReadKnotVector_app k r : fits_int (len k) = true -> ReadKnotVector (WriteKnotVector k ++ r) = Some (k, r).
Proof.
  intros F. unfold ReadKnotVector, WriteKnotVector. rewrite wrap_int_id by exact F. rewrite <- app_assoc, read_int_app by exact F.
  destruct (Z.ltb_spec (len k) 0); [pose proof (len_nonneg k); lia|]. unfold len. rewrite Nat2Z.id. apply read_dbls_app.
Qed.
Lemma ReadVec4_app p r : ReadVec4 (WriteVec4 p ++ r) = Some (p, r).
Proof.
  unfold ReadVec4, WriteVec4. pose proof (read_dbls_app [x4 p; y4 p; z4 p; w4 p] r) as H. cbn [flat_map length] in H.
  rewrite app_nil_r in H. rewrite H. destruct p; reflexivity.
Qed.
Lemma read_points_app l r : read_points (length l) (flat_map WriteVec4 l ++ r) = Some (l, r).
Proof.
  induction l as [|d l IH]; [reflexivity|]. cbn [length flat_map read_points]. rewrite <- app_assoc, ReadVec4_app, IH. reflexivity.
Qed.

(** ** More input does not change what was read *)
Definition extends {A} (rd : bytes -> option (A * bytes)) : Prop :=
  forall is a r t, rd is = Some (a, r) -> rd (is ++ t) = Some (a, r ++ t).
Lemma read_n_ext n : extends (read_n n).
Proof.
  intros is a r t H. unfold read_n in *. rewrite app_length. destruct (Nat.leb_spec n (length is)) as [L|L]; [|discriminate].
  destruct (Nat.leb_spec n (length is + length t)); [|lia]. inversion H; subst. rewrite firstn_app, skipn_app.
  replace (n - length is)%nat with 0%nat by lia. rewrite firstn_O, app_nil_r. reflexivity.
Qed.
Lemma read_int_ext : extends read_int.
Proof.
  intros is a r t H. unfold read_int in *. destruct (read_n 4 is) as [[b r']|] eqn:E; [|discriminate]. inversion H; subst.
  rewrite (read_n_ext 4 _ _ _ t E). reflexivity.
Qed.
Lemma read_dbl_ext : extends read_dbl.
Proof.
  intros is a r t H. unfold read_dbl in *. destruct (read_n 8 is) as [[b r']|] eqn:E; [|discriminate]. inversion H; subst.
  rewrite (read_n_ext 8 _ _ _ t E). reflexivity.
Qed.
Lemma read_dbls_ext n : extends (read_dbls n).
Proof.
  induction n as [|n IH]; intros is a r t H; cbn [read_dbls] in *; [inversion H; reflexivity|].
  destruct (read_dbl is) as [[d r']|] eqn:E; [|discriminate]. rewrite (read_dbl_ext _ _ _ t E).
  destruct (read_dbls n r') as [[l r2]|] eqn:E2; [|discriminate]. inversion H; subst. rewrite (IH _ _ _ t E2). reflexivity.
Qed.
Lemma ReadKnotVector_ext : extends ReadKnotVector.
Proof.
  intros is a r t H. unfold ReadKnotVector in *. destruct (read_int is) as [[b r']|] eqn:E; [|discriminate].
  rewrite (read_int_ext _ _ _ t E). destruct (b <? 0); [discriminate|]. apply read_dbls_ext. exact H.
Qed.
Lemma ReadVec4_ext : extends ReadVec4.
Proof.
  intros is a r t H. unfold ReadVec4 in *. destruct (read_dbls 4 is) as [[l r']|] eqn:E; [|discriminate].
  rewrite (read_dbls_ext 4 _ _ _ t E). destruct l as [|? [|? [|? [|? [|]]]]]; try discriminate. inversion H; subst. reflexivity.
Qed.
Lemma read_points_ext n : extends (read_points n).
Proof.
  induction n as [|n IH]; intros is a r t H; cbn [read_points] in *; [inversion H; reflexivity|].
  destruct (ReadVec4 is) as [[d r']|] eqn:E; [|discriminate]. rewrite (ReadVec4_ext _ _ _ t E).
  destruct (read_points n r') as [[l r2]|] eqn:E2; [|discriminate]. inversion H; subst. rewrite (IH _ _ _ t E2). reflexivity.
Qed.

(** ** Curve bodies as a reader *)
Definition read_curve (is : bytes) : option (curve dbl * bytes) :=
  match read_int is with
  | None => None
  | Some (d, is) =>
      match ReadKnotVector is with
      | None => None
      | Some (k, is) =>
          match read_int is with
          | None => None
          | Some (n, is) =>
              if n <? 0 then None
              else match read_points (Z.to_nat n) is with None => None | Some (p, is) => Some (Curve d k p, is) end
          end
      end
  end.
Definition write_curve (c : curve dbl) : bytes :=
  int_bytes (Degree c) ++ WriteKnotVector (Knots c) ++ int_bytes (wrap_int (len (ControlPoints c))) ++ flat_map WriteVec4 (ControlPoints c).
Definition curve_fits (c : curve dbl) : Prop :=
  fits_int (Degree c) = true /\ fits_int (len (Knots c)) = true /\ fits_int (len (ControlPoints c)) = true.
Lemma load_bin_read c is : match read_curve is with
  | Some (c', _) => Curve_load_bin c is = (c', Ok tt)
  | None => exists c', Curve_load_bin c is = (c', Throw RuntimeError)
  end.
Proof.
  unfold read_curve, Curve_load_bin, fail. destruct (read_int is) as [[d r]|]; [|eauto]. destruct (ReadKnotVector r) as [[k r2]|]; [|eauto].
  destruct (read_int r2) as [[n r3]|]; [|eauto]. destruct (n <? 0); [eauto|]. destruct (read_points (Z.to_nat n) r3) as [[p r4]|]; [|eauto]. reflexivity.
Qed.
Lemma read_curve_ext : extends read_curve.
Proof.
  intros is a r t H. unfold read_curve in *. destruct (read_int is) as [[d r1]|] eqn:E1; [|discriminate].
  rewrite (read_int_ext _ _ _ t E1). destruct (ReadKnotVector r1) as [[k r2]|] eqn:E2; [|discriminate].
  rewrite (ReadKnotVector_ext _ _ _ t E2). destruct (read_int r2) as [[n r3]|] eqn:E3; [|discriminate].
  rewrite (read_int_ext _ _ _ t E3). destruct (n <? 0); [discriminate|].
  destruct (read_points (Z.to_nat n) r3) as [[p r4]|] eqn:E4; [|discriminate]. rewrite (read_points_ext _ _ _ _ t E4). inversion H; subst. reflexivity.
Qed.
Lemma read_curve_app c r : curve_fits c -> read_curve (write_curve c ++ r) = Some (c, r).
Proof.
  intros [F1 [F2 F3]]. unfold read_curve, write_curve. rewrite <- !app_assoc, read_int_app by exact F1.
  rewrite ReadKnotVector_app by exact F2. rewrite wrap_int_id by exact F3. rewrite read_int_app by exact F3.
  destruct (Z.ltb_spec (len (ControlPoints c)) 0); [pose proof (len_nonneg (ControlPoints c)); lia|].
  unfold len. rewrite Nat2Z.id, read_points_app. destruct c; reflexivity.
Qed.

(** ** Surface bodies *)
Definition read_surface (is : bytes) : option (surface dbl * bytes) :=
  match read_int is with None => None | Some (du, is) =>
  match read_int is with None => None | Some (dv, is) =>
  match ReadKnotVector is with None => None | Some (ku, is) =>
  match ReadKnotVector is with None => None | Some (kv, is) =>
  match read_int is with None => None | Some (uc, is) =>
  match read_int is with None => None | Some (vc, is) =>
    if (uc <=? 0) || (vc <=? 0) || negb (fits_int (uc * vc)) then None
    else match read_points (Z.to_nat (uc * vc)) is with None => None | Some (p, is) =>
      Some (Surface du dv ku kv (Grid uc vc p), is) end end end end end end end.
Definition write_surface (s : surface dbl) : bytes :=
  int_bytes (DegreeU s) ++ int_bytes (DegreeV s) ++ WriteKnotVector (KnotsU s) ++ WriteKnotVector (KnotsV s)
  ++ int_bytes (UCount (Net s)) ++ int_bytes (VCount (Net s)) ++ flat_map WriteVec4 (Values (Net s)).
(** what the fields of the C++ type can hold, with a grid of matching positive size *)
Definition surface_fits (s : surface dbl) : Prop :=
  fits_int (DegreeU s) = true /\ fits_int (DegreeV s) = true /\ fits_int (len (KnotsU s)) = true /\ fits_int (len (KnotsV s)) = true /\
  0 < UCount (Net s) /\ 0 < VCount (Net s) /\ len (Values (Net s)) = UCount (Net s) * VCount (Net s) /\ fits_int (len (Values (Net s))) = true.
Lemma sload_bin_read s is : match read_surface is with
  | Some (s', _) => Surface_load_bin s is = (s', Ok tt)
  | None => exists s' o, Surface_load_bin s is = (s', o) /\ (o = Throw RuntimeError \/ o = Undefined IntOverflow)
  end.
Proof.
  unfold read_surface, Surface_load_bin, fail. destruct (read_int is) as [[du r]|]; [|eauto 6]. destruct (read_int r) as [[dv r1]|]; [|eauto 6].
  destruct (ReadKnotVector r1) as [[ku r2]|]; [|eauto 6]. destruct (ReadKnotVector r2) as [[kv r3]|]; [|eauto 6].
  destruct (read_int r3) as [[uc r4]|]; [|eauto 6]. destruct (read_int r4) as [[vc r5]|]; [|eauto 6].
  destruct ((uc <=? 0) || (vc <=? 0)) eqn:Eb; cbn [orb]; [eauto 6|]. destruct (negb (fits_int (uc * vc))); [eauto 6|].
  destruct (read_points (Z.to_nat (uc * vc)) r5) as [[p r6]|]; [|eauto 6]. reflexivity.
Qed.
Lemma read_surface_ext : extends read_surface.
Proof.
  intros is a r t H. unfold read_surface in *. destruct (read_int is) as [[du r1]|] eqn:E1; [|discriminate].
  rewrite (read_int_ext _ _ _ t E1). destruct (read_int r1) as [[dv r2]|] eqn:E2; [|discriminate]. rewrite (read_int_ext _ _ _ t E2).
  destruct (ReadKnotVector r2) as [[ku r3]|] eqn:E3; [|discriminate]. rewrite (ReadKnotVector_ext _ _ _ t E3).
  destruct (ReadKnotVector r3) as [[kv r4]|] eqn:E4; [|discriminate]. rewrite (ReadKnotVector_ext _ _ _ t E4).
  destruct (read_int r4) as [[uc r5]|] eqn:E5; [|discriminate]. rewrite (read_int_ext _ _ _ t E5).
  destruct (read_int r5) as [[vc r6]|] eqn:E6; [|discriminate]. rewrite (read_int_ext _ _ _ t E6).
  destruct (_ || _ || _); [discriminate|]. destruct (read_points (Z.to_nat (uc * vc)) r6) as [[p r7]|] eqn:E7; [|discriminate].
  rewrite (read_points_ext _ _ _ _ t E7). inversion H; subst. reflexivity.
Qed.
Lemma fits_grid s : surface_fits s -> fits_int (UCount (Net s)) = true /\ fits_int (VCount (Net s)) = true /\ fits_int (UCount (Net s) * VCount (Net s)) = true.
Proof.
  intros [_ [_ [_ [_ [U [V [L F]]]]]]]. rewrite L in F. split; [|split; [|exact F]]; unfold fits_int, INT_MIN, INT_MAX in *;
    rewrite andb_true_iff, !Z.leb_le in *; nia.
Qed.
Lemma read_surface_app s r : surface_fits s -> read_surface (write_surface s ++ r) = Some (s, r).
Proof.
  intros S. destruct (fits_grid s S) as [G1 [G2 G3]]. destruct S as [F1 [F2 [F3 [F4 [U [V [L F]]]]]]]. unfold read_surface, write_surface.
  rewrite <- !app_assoc, !read_int_app by assumption. rewrite !ReadKnotVector_app by assumption. rewrite !read_int_app by assumption.
  destruct (Z.leb_spec (UCount (Net s)) 0); [lia|]. destruct (Z.leb_spec (VCount (Net s)) 0); [lia|]. rewrite G3. cbn [orb negb].
  rewrite <- L. unfold len. rewrite Nat2Z.id, read_points_app. destruct s as [? ? ? ? []]; reflexivity.
Qed.
Lemma tabulate_vget {A} (l : list A) n : 0 <= n <= len l -> tabulate 0 n (fun i => vget l i) = Ok (firstn (Z.to_nat n) l).
Proof.
  intros Hn. unfold tabulate. rewrite Z.sub_0_r.
  assert (forall m k, (m + k <= length l)%nat -> tabulate_nat m (Z.of_nat k) (fun i => vget l i) = Ok (firstn m (skipn k l))) as H.
  { induction m as [|m IH]; intros k Hk; [reflexivity|]. cbn [tabulate_nat]. unfold vget at 1. destruct (Z.ltb_spec (Z.of_nat k) 0); [lia|].
    rewrite Nat2Z.id. destruct (nth_error l k) as [a|] eqn:E; [|apply nth_error_None in E; lia]. cbn [bind].
    replace (Z.of_nat k + 1) with (Z.of_nat (S k)) by lia. rewrite IH by lia. cbn [bind]. f_equal.
    assert (skipn k l = a :: skipn (S k) l) as ->; [|reflexivity]. clear - E. revert l E. induction k; intros [|b l] E; simpl in *; try discriminate; [congruence|]. apply IHk. exact E. }
  specialize (H (Z.to_nat n) 0%nat). change (Z.of_nat 0) with 0 in H. rewrite H by (unfold len in Hn; lia). reflexivity.
Qed.
Lemma Surface_Save_bin s : surface_fits s -> Surface_SaveToFile s true = Ok (header true "SURFACE" ++ write_surface s).
Proof.
  intros S. destruct (fits_grid s S) as [_ [_ G3]]. destruct S as [_ [_ [_ [_ [U [V [L _]]]]]]]. unfold Surface_SaveToFile. cbv zeta.
  unfold int_. rewrite G3. cbn [bind]. rewrite tabulate_vget by (rewrite L; nia). cbn [bind]. rewrite <- L. unfold len. rewrite Nat2Z.id, firstn_all. reflexivity.
Qed.

(** ** Headers written by the library *)
Lemma split_at_nl l r : ~ In newline l -> split_at newline (l ++ newline :: r) = (l, r).
Proof.
  induction l as [|c l IH]; intros N.
  - reflexivity.
  - cbn [app split_at]. destruct (Ascii.eqb_spec c newline) as [->|]; [exfalso; apply N; left; reflexivity|].
    rewrite IH; [reflexivity|]. intros H. apply N. right. exact H.
Qed.
Lemma header_curve b r : load_header "CURVE" (header b "CURVE" ++ r) = Some (b, r).
Proof. destruct b; reflexivity. Qed.
Lemma header_surface b r : load_header "SURFACE" (header b "SURFACE" ++ r) = Some (b, r).
Proof. destruct b; reflexivity. Qed.

(** ** C57-C59 *)
Lemma Curve_Save_bin c : Curve_SaveToFile c true = header true "CURVE" ++ write_curve c.
Proof. reflexivity. Qed.
Lemma C57_lemma (c prior : curve dbl) rest : curve_fits c ->
  Curve_LoadFromFile prior (Curve_SaveToFile c true ++ rest) = (c, Ok tt).
Proof.
  intros F. rewrite Curve_Save_bin, <- app_assoc. unfold Curve_LoadFromFile. rewrite header_curve.
  pose proof (load_bin_read prior (write_curve c ++ rest)) as H. rewrite read_curve_app in H by exact F. exact H.
Qed.
Lemma C58_lemma (s prior : surface dbl) : surface_fits s -> exists file, Surface_SaveToFile s true = Ok file /\
  forall rest, Surface_LoadFromFile prior (file ++ rest) = (s, Ok tt).
Proof.
  intros F. eexists. split; [apply Surface_Save_bin; exact F|]. intros rest. rewrite <- app_assoc. unfold Surface_LoadFromFile. rewrite header_surface.
  pose proof (sload_bin_read prior (write_surface s ++ rest)) as H. rewrite read_surface_app in H by exact F. exact H.
Qed.
(** a prefix of [h ++ body] is a prefix of [h] or [h] followed by a prefix of [body] *)
Lemma prefix_split {A} n (h body : list A) :
  firstn n (h ++ body) = firstn n h /\ (n <= length h)%nat \/
  exists m, firstn n (h ++ body) = h ++ firstn m body /\ n = (length h + m)%nat.
Proof.
  destruct (Nat.le_gt_cases n (length h)) as [L|L].
  - left. rewrite firstn_app. replace (n - length h)%nat with 0%nat by lia. rewrite firstn_O, app_nil_r. auto.
  - right. exists (n - length h)%nat. rewrite firstn_app. rewrite firstn_all2 by lia. split; [reflexivity|lia].
Qed.
Lemma ext_strict {A} (rd : bytes -> option (A * bytes)) file a n : extends rd -> rd file = Some (a, []) -> (n < length file)%nat -> rd (firstn n file) = None.
Proof.
  intros X E L. destruct (rd (firstn n file)) as [[b r]|] eqn:E2; [|reflexivity]. apply (X _ _ _ (skipn n file)) in E2.
  rewrite firstn_skipn, E in E2. injection E2 as _ Er. symmetry in Er. apply app_eq_nil in Er. destruct Er as [_ Er].
  apply (f_equal (@List.length ascii)) in Er. rewrite skipn_length in Er. simpl in Er. lia.
Qed.
(** every cut inside the header is refused, or leaves no body at all *)
Lemma cut_header type n : type = "CURVE"%string \/ type = "SURFACE"%string -> (n <= length (header true type))%nat ->
  load_header type (firstn n (header true type)) = None \/ load_header type (firstn n (header true type)) = Some (true, []).
Proof.
  intros T L.
  assert (forallb (fun n => match load_header type (firstn n (header true type)) with None => true | Some (true, []) => true | _ => false end)
            (seq 0 (S (length (header true type)))) = true) as H by (destruct T as [-> | ->]; vm_compute; reflexivity).
  rewrite forallb_forall in H. specialize (H n). rewrite in_seq in H. specialize (H ltac:(lia)).
  destruct (load_header _ _) as [[[] [|? ?]]|]; try discriminate; auto.
Qed.
Lemma C59_curve_lemma (c prior : curve dbl) n : curve_fits c -> (n < length (Curve_SaveToFile c true))%nat ->
  exists c', Curve_LoadFromFile prior (firstn n (Curve_SaveToFile c true)) = (c', Throw RuntimeError).
Proof.
  intros F L. rewrite Curve_Save_bin in *. unfold Curve_LoadFromFile.
  destruct (prefix_split n (header true "CURVE") (write_curve c)) as [[-> Hn]|[m [-> ->]]].
  - destruct (cut_header "CURVE" n (or_introl eq_refl) Hn) as [-> | ->]; [eexists; reflexivity|].
    pose proof (load_bin_read prior []) as H. cbn in H. exact H.
  - rewrite header_curve. rewrite app_length in L. pose proof (load_bin_read prior (firstn m (write_curve c))) as H.
    pose proof (read_curve_app c [] F) as E. rewrite app_nil_r in E. rewrite (ext_strict _ _ _ _ read_curve_ext E) in H by lia. exact H.
Qed.
(** no overflow while reading a prefix of a file written from a fitting surface *)
Definition read_dims (is : bytes) : option (Z * Z * bytes) :=
  match read_int is with None => None | Some (du, is) =>
  match read_int is with None => None | Some (dv, is) =>
  match ReadKnotVector is with None => None | Some (ku, is) =>
  match ReadKnotVector is with None => None | Some (kv, is) =>
  match read_int is with None => None | Some (uc, is) =>
  match read_int is with None => None | Some (vc, is) => Some (uc, vc, is) end end end end end end.
Lemma sload_bin_throw s is : read_surface is = None ->
  match read_dims is with None => True | Some (uc, vc, _) => fits_int (uc * vc) = true end ->
  exists s', Surface_load_bin s is = (s', Throw RuntimeError).
Proof.
  unfold read_surface, Surface_load_bin, read_dims, fail. destruct (read_int is) as [[du r]|]; [|eauto 6]. destruct (read_int r) as [[dv r1]|]; [|eauto 6].
  destruct (ReadKnotVector r1) as [[ku r2]|]; [|eauto 6]. destruct (ReadKnotVector r2) as [[kv r3]|]; [|eauto 6].
  destruct (read_int r3) as [[uc r4]|]; [|eauto 6]. destruct (read_int r4) as [[vc r5]|]; [|eauto 6].
  intros E F. rewrite F in *. cbn [negb] in *. rewrite orb_false_r in E.
  destruct ((uc <=? 0) || (vc <=? 0)) eqn:Eb; [eauto 6|].
  destruct (read_points (Z.to_nat (uc * vc)) r5) as [[p r6]|]; [discriminate|]. eauto 6.
Qed.
Lemma read_dims_ext : forall is uc vc r t, read_dims is = Some (uc, vc, r) -> read_dims (is ++ t) = Some (uc, vc, r ++ t).
Proof.
  intros is uc vc r t H. unfold read_dims in *. destruct (read_int is) as [[du r1]|] eqn:E1; [|discriminate].
  rewrite (read_int_ext _ _ _ t E1). destruct (read_int r1) as [[dv r2]|] eqn:E2; [|discriminate]. rewrite (read_int_ext _ _ _ t E2).
  destruct (ReadKnotVector r2) as [[ku r3]|] eqn:E3; [|discriminate]. rewrite (ReadKnotVector_ext _ _ _ t E3).
  destruct (ReadKnotVector r3) as [[kv r4]|] eqn:E4; [|discriminate]. rewrite (ReadKnotVector_ext _ _ _ t E4).
  destruct (read_int r4) as [[uc' r5]|] eqn:E5; [|discriminate]. rewrite (read_int_ext _ _ _ t E5).
  destruct (read_int r5) as [[vc' r6]|] eqn:E6; [|discriminate]. rewrite (read_int_ext _ _ _ t E6). inversion H; subst. reflexivity.
Qed.
Lemma read_dims_app s r : surface_fits s -> exists r', read_dims (write_surface s ++ r) = Some (UCount (Net s), VCount (Net s), r').
Proof.
  intros S. destruct (fits_grid s S) as [G1 [G2 G3]]. destruct S as [F1 [F2 [F3 [F4 _]]]]. eexists. unfold read_dims, write_surface.
  rewrite <- !app_assoc, !read_int_app by assumption. rewrite !ReadKnotVector_app by assumption. rewrite !read_int_app by assumption. reflexivity.
Qed.
Lemma C59_surface_lemma (s prior : surface dbl) : surface_fits s -> exists file, Surface_SaveToFile s true = Ok file /\
  forall n, (n < length file)%nat -> exists s', Surface_LoadFromFile prior (firstn n file) = (s', Throw RuntimeError).
Proof.
  intros F. eexists. split; [apply Surface_Save_bin; exact F|]. intros n L. unfold Surface_LoadFromFile.
  destruct (prefix_split n (header true "SURFACE") (write_surface s)) as [[-> Hn]|[m [-> ->]]].
  - destruct (cut_header "SURFACE" n (or_intror eq_refl) Hn) as [-> | ->]; [eexists; reflexivity|]. eexists. reflexivity.
  - rewrite header_surface. rewrite app_length in L. apply sload_bin_throw.
    + pose proof (read_surface_app s [] F) as E. rewrite app_nil_r in E. apply (ext_strict _ _ _ _ read_surface_ext E). lia.
    + destruct (read_dims (firstn m (write_surface s))) as [[[uc vc] r]|] eqn:E; [|exact I].
      apply (read_dims_ext _ _ _ _ (skipn m (write_surface s))) in E. rewrite firstn_skipn in E.
      destruct (read_dims_app s [] F) as [r' E']. rewrite app_nil_r in E'. rewrite E in E'. inversion E'; subst. apply (fits_grid s F).
Qed.
