(** Text files: printing and parsing of numbers, lines and tokens. *)
From Coq Require Import List ZArith Lia Bool Ascii String.
From Coq Require Import Floats.SpecFloat.
From Verif Require Import Outcome Num ModelCore ModelCurve ModelSurface ModelSerial SpecSerial ThOutcome ThSerial ThSerial2.
Import ListNotations.
Open Scope Z_scope.
Notation length := List.length.

(** ** Decimal digits *)
Definition from (a : Z) (s : bytes) : Z := fold_left (fun a c => 10 * a + digit_value c) s a.
Lemma from_app a s t : from a (s ++ t) = from (from a s) t.
Proof. apply fold_left_app. Qed.
Lemma digit_range d : 0 <= d < 10 -> digit_value (digit_char d) = d /\ isdigit (digit_char d) = true.
Proof.
  intros H. assert (d = 0 \/ d = 1 \/ d = 2 \/ d = 3 \/ d = 4 \/ d = 5 \/ d = 6 \/ d = 7 \/ d = 8 \/ d = 9) as C by lia.
  repeat destruct C as [->|C]; try (split; reflexivity). subst. split; reflexivity.
Qed.
Lemma dec_digits_from f : forall n acc, 0 <= n < 10 ^ Z.of_nat f -> from 0 (dec_digits f n acc) = from n acc.
Proof.
  induction f as [|f IH]; intros n acc H.
  - change (10 ^ Z.of_nat 0) with 1 in H. replace n with 0 by lia. reflexivity.
  - cbn [dec_digits]. pose proof (Z.mod_pos_bound n 10 ltac:(lia)) as B. destruct (digit_range (n mod 10) B) as [V _]. destruct (Z.ltb_spec n 10).
    + unfold from. cbn [fold_left]. rewrite V. rewrite Z.mod_small by lia. f_equal.
    + rewrite IH.
      * unfold from. cbn [fold_left]. rewrite V. f_equal. pose proof (Z.div_mod n 10 ltac:(lia)). lia.
      * rewrite Nat2Z.inj_succ, Z.pow_succ_r in H by lia. split; [apply Z.div_pos; lia|apply Z.div_lt_upper_bound; lia].
Qed.
Definition digits (s : bytes) : Prop := Forall (fun c => isdigit c = true) s.
Lemma dec_digits_digits f : forall n acc, digits acc -> digits (dec_digits f n acc).
Proof.
  induction f as [|f IH]; intros n acc H; [exact H|]. cbn [dec_digits]. pose proof (Z.mod_pos_bound n 10 ltac:(lia)) as B. destruct (digit_range (n mod 10) B) as [_ V].
  assert (digits (digit_char (n mod 10) :: acc)) as D by (constructor; assumption). destruct (n <? 10); [exact D|apply IH; exact D].
Qed.
Lemma dec_digits_ne f : forall n acc, (f <> 0%nat \/ acc <> []) -> dec_digits f n acc <> [].
Proof.
  induction f as [|f IH]; intros n acc H; [destruct H as [H|H]; [congruence|exact H]|]. cbn [dec_digits]. destruct (n <? 10); [discriminate|]. apply IH. right. discriminate.
Qed.
Lemma print_nat_ok n : 0 <= n -> from 0 (print_nat n) = n /\ digits (print_nat n) /\ print_nat n <> [].
Proof.
  intros H. unfold print_nat. pose proof (Z.log2_nonneg n). split; [|split].
  - rewrite dec_digits_from; [reflexivity|]. split; [exact H|]. rewrite Z2Nat.id by lia.
    destruct (Z.eq_dec n 0) as [->|]; [apply Z.pow_pos_nonneg; lia|].
    pose proof (Z.log2_spec n ltac:(lia)) as [_ L]. apply Z.lt_le_trans with (2 ^ Z.succ (Z.log2 n)); [exact L|].
    apply Z.le_trans with (10 ^ Z.succ (Z.log2 n)); [apply Z.pow_le_mono_l; lia|apply Z.pow_le_mono_r; lia].
  - apply dec_digits_digits. constructor.
  - apply dec_digits_ne. left. lia.
Qed.
Lemma print_padded_ok k : forall n acc a, 0 <= n < 10 ^ Z.of_nat k -> digits acc ->
  from a (print_padded k n acc) = from (a * 10 ^ Z.of_nat k + n) acc /\ digits (print_padded k n acc) /\ length (print_padded k n acc) = (k + length acc)%nat.
Proof.
  induction k as [|k IH]; intros n acc a H D.
  - change (10 ^ Z.of_nat 0) with 1 in *. cbn [print_padded]. replace (a * 1 + n) with a by lia. auto.
  - cbn [print_padded]. rewrite Nat2Z.inj_succ, Z.pow_succ_r in H by lia. pose proof (Z.mod_pos_bound n 10 ltac:(lia)) as B. destruct (digit_range (n mod 10) B) as [V1 V2].
    destruct (IH (n / 10) (digit_char (n mod 10) :: acc) a) as [E [D' L]].
    { split; [apply Z.div_pos; lia|apply Z.div_lt_upper_bound; lia]. }
    { constructor; assumption. }
    split; [|split; [exact D'|rewrite L; simpl; lia]]. rewrite E. unfold from. cbn [fold_left]. rewrite V1. f_equal.
    rewrite Nat2Z.inj_succ, Z.pow_succ_r by lia. pose proof (Z.div_mod n 10 ltac:(lia)). lia.
Qed.
(** ** Parsing *)
Definition no_digit (t : bytes) : Prop := match t with [] => True | c :: _ => isdigit c = false end.
Lemma take_digits_app s t : digits s -> no_digit t -> take_digits (s ++ t) = (s, t).
Proof.
  intros D N. induction D as [|c s Hc D IH]; simpl.
  - destruct t as [|c t]; [reflexivity|]. simpl in *. rewrite N. reflexivity.
  - rewrite Hc, IH. reflexivity.
Qed.
Lemma digit_cases (P : ascii -> bool) : forallb (fun n => P (ascii_of_nat n)) (seq 48 10) = true -> forall c, isdigit c = true -> P c = true.
Proof.
  intros H c D. rewrite forallb_forall in H. specialize (H (nat_of_ascii c)). rewrite ascii_nat_embedding in H. apply H. apply in_seq.
  unfold isdigit in D. rewrite andb_true_iff, !N.leb_le in D. unfold nat_of_ascii. lia.
Qed.
Ltac digit_tac := match goal with H : isdigit ?c = true |- ?f ?c = false => apply negb_true_iff; revert c H; apply (digit_cases (fun c => negb (f c))); reflexivity end.
Lemma digit_space c : isdigit c = true -> isspace c = false.
Proof. intros H. apply negb_true_iff. revert c H. apply (digit_cases (fun c => negb (isspace c))). reflexivity. Qed.
Lemma digit_is k : isdigit k = false -> forall c, isdigit c = true -> Ascii.eqb c k = false.
Proof. intros K c H. destruct (Ascii.eqb_spec c k); congruence. Qed.
Definition sgn (neg : bool) : bytes := if neg then ["-"%char] else [].
Lemma sign_ok neg s t : digits s -> s <> [] -> drop_spaces (sgn neg ++ s ++ t) = sgn neg ++ s ++ t /\ take_sign (sgn neg ++ s ++ t) = (neg, s ++ t).
Proof.
  intros D N. destruct neg; simpl; [split; reflexivity|]. destruct D as [|c s Hc D]; [congruence|]. simpl.
  rewrite (digit_space c Hc), (digit_is "-" eq_refl c Hc), (digit_is "+" eq_refl c Hc). auto.
Qed.
Lemma parse_int_print z t : fits_int z = true -> no_digit t -> parse_int (print_int z ++ t) = Some (z, t).
Proof.
  intros F N. assert (print_int z = sgn (z <? 0) ++ print_nat (Z.abs z)) as ->.
  { unfold print_int. destruct (Z.ltb_spec z 0); simpl; [replace (Z.abs z) with (- z) by lia|replace (Z.abs z) with z by lia]; reflexivity. }
  unfold parse_int.
  destruct (print_nat_ok (Z.abs z) ltac:(lia)) as [V [D Ne]]. rewrite <- app_assoc.
  destruct (sign_ok (z <? 0) (print_nat (Z.abs z)) t D Ne) as [-> ->]. rewrite take_digits_app by assumption.
  destruct (print_nat (Z.abs z)) as [|c l] eqn:E; [congruence|]. rewrite <- E. change (digits_value (print_nat (Z.abs z))) with (from 0 (print_nat (Z.abs z))). rewrite E, V.
  assert ((if z <? 0 then - Z.abs z else Z.abs z) = z) as -> by (destruct (Z.ltb_spec z 0); lia). rewrite F. reflexivity.
Qed.
Definition no_number (t : bytes) : Prop := match t with [] => True | c :: _ => isdigit c = false /\ Ascii.eqb c "e" = false /\ Ascii.eqb c "E" = false end.
Lemma print_fixed_eq neg n : print_fixed neg n = sgn neg ++ print_nat (n / 10 ^ DECIMALS) ++ "."%char :: print_padded (Z.to_nat DECIMALS) (n mod 10 ^ DECIMALS) [].
Proof. reflexivity. Qed.
Lemma parse_double_fixed neg n t : 0 <= n -> no_number t -> is_inf (b64_of_decimal neg n (- DECIMALS)) = false ->
  parse_double (print_fixed neg n ++ t) = Some (b64_of_decimal neg n (- DECIMALS), t).
Proof.
  intros Hn N I. rewrite print_fixed_eq. unfold parse_double.
  assert (0 < 10 ^ DECIMALS) as P by (apply Z.pow_pos_nonneg; unfold DECIMALS; lia).
  destruct (print_nat_ok (n / 10 ^ DECIMALS) ltac:(apply Z.div_pos; lia)) as [V [D Ne]].
  destruct (print_padded_ok (Z.to_nat DECIMALS) (n mod 10 ^ DECIMALS) [] (n / 10 ^ DECIMALS)) as [V2 [D2 L2]].
  { apply Z.mod_pos_bound. exact P. }
  { constructor. }
  rewrite <- !app_assoc. cbn [app].
  destruct (sign_ok neg (print_nat (n / 10 ^ DECIMALS)) ("."%char :: print_padded (Z.to_nat DECIMALS) (n mod 10 ^ DECIMALS) [] ++ t) D Ne) as [-> ->].
  rewrite take_digits_app by (try assumption; reflexivity). cbn [take_fraction]. change (Ascii.eqb "." ".") with true. cbv iota.
  rewrite take_digits_app; [|exact D2|destruct t; [exact Logic.I|exact (proj1 N)]].
  assert (digits_value (print_nat (n / 10 ^ DECIMALS) ++ print_padded (Z.to_nat DECIMALS) (n mod 10 ^ DECIMALS) []) = n) as Ev.
  { change (digits_value ?s) with (from 0 s). rewrite from_app, V, V2. unfold from. cbn [fold_left].
    change (Z.of_nat (Z.to_nat DECIMALS)) with DECIMALS. pose proof (Z.div_mod n (10 ^ DECIMALS) ltac:(lia)). lia. }
  assert (parse_exponent t = Some (0, t)) as ->.
  { destruct t as [|c t]; [reflexivity|]. simpl in *. destruct N as [_ [-> ->]]. reflexivity. }
  assert (len (print_padded (Z.to_nat DECIMALS) (n mod 10 ^ DECIMALS) []) = DECIMALS) as El by (unfold len; rewrite L2; reflexivity).
  destruct (print_nat (n / 10 ^ DECIMALS) ++ print_padded (Z.to_nat DECIMALS) (n mod 10 ^ DECIMALS) []) as [|c l] eqn:E.
  { destruct (print_nat (n / 10 ^ DECIMALS)); [congruence|discriminate]. }
  rewrite Ev, El. replace (0 - DECIMALS) with (- DECIMALS) by lia. rewrite I. reflexivity.
Qed.
