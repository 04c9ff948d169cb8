(** Bit patterns and the values they stand for. *)
From Coq Require Import List ZArith Lia Bool Ascii.
From Coq Require Import Floats.SpecFloat.
From Flocq Require Import Core IEEE754.BinarySingleNaN.
From Verif Require Import Outcome Num ModelCore ModelCurve ModelSurface ModelSerial ThOutcome ThSerial.
Import ListNotations.
Open Scope Z_scope.

Lemma dbl_bits_range d : 0 <= dbl_bits d < 2 ^ 64.
Proof.
  destruct d as [a b c d e f g h]. unfold dbl_bits, dbl_bytes. cbn [byte0 byte1 byte2 byte3 byte4 byte5 byte6 byte7 le_Z].
  pose proof (Z_of_byte_range a). pose proof (Z_of_byte_range b). pose proof (Z_of_byte_range c). pose proof (Z_of_byte_range d).
  pose proof (Z_of_byte_range e). pose proof (Z_of_byte_range f). pose proof (Z_of_byte_range g). pose proof (Z_of_byte_range h). lia.
Qed.
Lemma dbl_bits_of z : 0 <= z < 2 ^ 64 -> dbl_bits (dbl_of_bits z) = z.
Proof.
  intros H. unfold dbl_bits, dbl_of_bits, dbl_bytes. cbn [byte0 byte1 byte2 byte3 byte4 byte5 byte6 byte7 le_Z]. rewrite !Z_of_byte_of.
  change (256 ^ 0) with 1. change (256 ^ 1) with 256. change (256 ^ 2) with 65536. change (256 ^ 3) with 16777216. change (256 ^ 4) with 4294967296.
  change (256 ^ 5) with 1099511627776. change (256 ^ 6) with 281474976710656. change (256 ^ 7) with 72057594037927936.
  Z.to_euclidean_division_equations. lia.
Qed.
Lemma dbl_of_bits_of d : dbl_of_bits (dbl_bits d) = d.
Proof.
  assert (forall x y : dbl, dbl_bits x = dbl_bits y -> x = y) as I.
  { intros [a b c e f g h i] [a' b' c' e' f' g' h' i']. unfold dbl_bits, dbl_bytes. cbn [byte0 byte1 byte2 byte3 byte4 byte5 byte6 byte7 le_Z]. intros E.
    assert (forall x y X Y, Z_of_byte x + 256 * X = Z_of_byte y + 256 * Y -> x = y /\ X = Y) as S.
    { clear. intros x y X Y E. pose proof (Z_of_byte_range x). pose proof (Z_of_byte_range y). assert (Z_of_byte x = Z_of_byte y) as Q by lia. split; [|lia].
      rewrite <- (byte_of_Z_of x), <- (byte_of_Z_of y), Q. reflexivity. }
    do 8 (apply S in E; destruct E as [? E]; subst). reflexivity. }
  apply I. apply dbl_bits_of, dbl_bits_range.
Qed.
Lemma digits2_pos_bound p k : 0 < k -> Zpos (digits2_pos p) = k <-> 2 ^ (k - 1) <= Zpos p < 2 ^ k.
Proof.
  intros Hk. pose proof (Digits.Zdigits_correct radix2 (Zpos p)) as C. rewrite <- Digits.Zpos_digits2_pos in C. cbn [Z.abs] in C.
  change (Z.pow (radix_val radix2)) with (Z.pow 2) in C. set (q := Zpos (digits2_pos p)) in *. assert (0 < q) by reflexivity. split.
  - intros <-. exact C.
  - intros B. destruct (Z.lt_trichotomy q k) as [L|[E|G]]; [|exact E|].
    + assert (2 ^ q <= 2 ^ (k - 1)) by (apply Z.pow_le_mono_r; lia). lia.
    + assert (2 ^ k <= 2 ^ (q - 1)) by (apply Z.pow_le_mono_r; lia). lia.
Qed.
(** [bounded]: a full 53-bit significand, or the least exponent *)
Lemma bounded_iff m e : bounded 53 1024 m e = true <-> (Zpos m < 2 ^ 52 /\ e = -1074) \/ (2 ^ 52 <= Zpos m < 2 ^ 53 /\ -1074 <= e <= 971).
Proof.
  unfold bounded, canonical_mantissa, fexp, SpecFloat.emin. rewrite andb_true_iff, Z.leb_le, <- Zeq_is_eq_bool.
  change (3 - 1024 - 53) with (-1074). change (1024 - 53) with 971.
  pose proof (digits2_pos_bound m 53 ltac:(lia)) as D. change (53 - 1) with 52 in D.
  pose proof (Digits.Zdigits_correct radix2 (Zpos m)) as C. rewrite <- Digits.Zpos_digits2_pos in C. cbn [Z.abs] in C.
  change (Z.pow (radix_val radix2)) with (Z.pow 2) in C. set (q := Zpos (digits2_pos m)) in *. assert (0 < q) as Pq by reflexivity.
  assert (q <= 52 <-> Zpos m < 2 ^ 52) as D'.
  { split; intros H.
    - assert (2 ^ q <= 2 ^ 52) by (apply Z.pow_le_mono_r; lia). lia.
    - destruct (Z.le_gt_cases q 52) as [L|G]; [exact L|]. assert (2 ^ 52 <= 2 ^ (q - 1)) by (apply Z.pow_le_mono_r; lia). lia. }
  split.
  - intros [A B]. destruct (Z.le_gt_cases q 52) as [L|G]; [left|right].
    + split; [apply D'; exact L|lia].
    + assert (q = 53) by lia. split; [apply D; assumption|lia].
  - intros [[A B]|[A B]].
    + apply D' in A. lia.
    + apply D in A. lia.
Qed.
Lemma bits_value_valid z : 0 <= z < 2 ^ 64 -> valid_binary 53 1024 (bits_value z) = true.
Proof.
  intros H. unfold bits_value. pose proof (Z.mod_pos_bound z (2 ^ 52) eq_refl) as Bm. pose proof (Z.mod_pos_bound (z / 2 ^ 52) (2 ^ 11) eq_refl) as Be.
  set (m := z mod 2 ^ 52) in *. set (e := (z / 2 ^ 52) mod 2 ^ 11) in *. destruct (Z.eqb_spec e 0).
  { destruct m as [|p|p] eqn:Em; try reflexivity. apply bounded_iff. lia. }
  destruct (Z.eqb_spec e 2047).
  { destruct (m =? 0); reflexivity. }
  destruct (m + 2 ^ 52) as [|p|p] eqn:Em; try lia. apply bounded_iff. lia.
Qed.
Lemma value_bits_range f : valid_binary 53 1024 f = true -> 0 <= value_bits f < 2 ^ 64.
Proof.
  intros V. unfold value_bits. destruct f as [s|s| |s m e]; try (destruct s; lia); [lia|].
  cbn in V. apply bounded_iff in V. destruct (Z.ltb_spec (Zpos m) (2 ^ 52)); destruct s; lia.
Qed.
Lemma split_bits s e m : 0 <= e < 2 ^ 11 -> 0 <= m < 2 ^ 52 -> 
  let z := (if s : bool then 2 ^ 63 else 0) + e * 2 ^ 52 + m in negb (z <? 2 ^ 63) = s /\ (z / 2 ^ 52) mod 2 ^ 11 = e /\ z mod 2 ^ 52 = m.
Proof.
  intros He Hm z. subst z. split; [destruct s; lia|].
  assert (((if s then 2 ^ 63 else 0) + e * 2 ^ 52 + m) / 2 ^ 52 = (if s then 2 ^ 11 else 0) + e) as Q.
  { symmetry. apply (Z.div_unique_pos _ _ _ m); [lia|]. destruct s; lia. }
  rewrite Q. split.
  - symmetry. apply (Z.mod_unique_pos _ _ (if s then 1 else 0)); [lia|]. destruct s; lia.
  - symmetry. apply (Z.mod_unique_pos _ _ ((if s then 2 ^ 11 else 0) + e)); [lia|]. destruct s; lia.
Qed.
Lemma bits_value_of f : valid_binary 53 1024 f = true -> bits_value (value_bits f) = f.
Proof.
  intros V. destruct f as [s|s| |s m e]; [destruct s; reflexivity|destruct s; reflexivity|reflexivity|].
  cbn in V. apply bounded_iff in V. unfold value_bits. destruct (Z.ltb_spec (Zpos m) (2 ^ 52)) as [L|L].
  - destruct V as [[_ ->]|V]; [|lia]. destruct (split_bits s 0 (Zpos m) ltac:(lia) ltac:(lia)) as [A [B C]]. rewrite Z.mul_0_l, Z.add_0_r in A, B, C.
    unfold bits_value. rewrite A, B, C. reflexivity.
  - destruct V as [[V _]|V]; [lia|]. destruct (split_bits s (e + 1075) (Zpos m - 2 ^ 52) ltac:(lia) ltac:(lia)) as [A [B C]].
    unfold bits_value. rewrite A, B, C. destruct (Z.eqb_spec (e + 1075) 0); [lia|]. destruct (Z.eqb_spec (e + 1075) 2047); [lia|].
    replace (Zpos m - 2 ^ 52 + 2 ^ 52) with (Zpos m) by lia. f_equal. lia.
Qed.
Lemma value_bits_of z : 0 <= z < 2 ^ 64 -> is_finite_SF (bits_value z) = true -> value_bits (bits_value z) = z.
Proof.
  intros H. unfold bits_value. pose proof (Z.mod_pos_bound z (2 ^ 52) eq_refl) as Bm. pose proof (Z.mod_pos_bound (z / 2 ^ 52) (2 ^ 11) eq_refl) as Be.
  assert (z = (if negb (z <? 2 ^ 63) then 2 ^ 63 else 0) + ((z / 2 ^ 52) mod 2 ^ 11) * 2 ^ 52 + z mod 2 ^ 52) as E.
  { destruct (Z.ltb_spec z (2 ^ 63)); cbn [negb]; Z.to_euclidean_division_equations; lia. }
  set (m := z mod 2 ^ 52) in *. set (e := (z / 2 ^ 52) mod 2 ^ 11) in *. set (s := negb (z <? 2 ^ 63)) in *. destruct (Z.eqb_spec e 0) as [E0|E0].
  { destruct m as [|p|p] eqn:Em; [..|lia]; intros _; unfold value_bits; [lia|]. destruct (Z.ltb_spec (Zpos p) (2 ^ 52)); lia. }
  destruct (Z.eqb_spec e 2047).
  { destruct (m =? 0); discriminate. }
  destruct (m + 2 ^ 52) as [|p|p] eqn:Em; try lia. intros _. unfold value_bits. destruct (Z.ltb_spec (Zpos p) (2 ^ 52)); lia.
Qed.
Lemma dbl_value_valid d : valid_binary 53 1024 (dbl_value d) = true.
Proof. apply bits_value_valid, dbl_bits_range. Qed.
Lemma dbl_value_of f : valid_binary 53 1024 f = true -> dbl_value (dbl_of_value f) = f.
Proof. intros V. unfold dbl_value, dbl_of_value. rewrite dbl_bits_of by (apply value_bits_range; exact V). apply bits_value_of, V. Qed.
Lemma dbl_of_value_of d : is_finite_SF (dbl_value d) = true -> dbl_of_value (dbl_value d) = d.
Proof. intros Fi. unfold dbl_value, dbl_of_value. rewrite value_bits_of; [apply dbl_of_bits_of|apply dbl_bits_range|exact Fi]. Qed.
