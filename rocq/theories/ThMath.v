(** Factorial and Binomial. *)
From Coq Require Import ZArith Lia Bool List Factorial.
From Verif Require Import Outcome ModelCore SpecCore ThOutcome.
Import ListNotations.
Open Scope Z_scope.

Lemma Factorial_ok n : (n <= 9)%nat -> Factorial (Z.of_nat n) = Ok (Z.of_nat (fact n)).
Proof.
  intros H. do 10 (destruct n as [|n]; [reflexivity|]). lia.
Qed.
Lemma Factorial_assert n : n < 0 \/ 9 < n -> Factorial n = AssertFail.
Proof.
  intros H. unfold Factorial. destruct (Z.leb_spec 0 n), (Z.leb_spec n 9); try lia; reflexivity.
Qed.

Lemma choose_nonneg n k : 0 <= choose n k.
Proof. revert k; induction n; intros [|k]; simpl; try lia. pose proof (IHn k). pose proof (IHn (S k)). lia. Qed.
Lemma choose_zero n k : (n < k)%nat -> choose n k = 0.
Proof. revert k; induction n; intros [|k] H; simpl; try lia. rewrite !IHn by lia. lia. Qed.
Lemma choose_0_r n : choose n 0 = 1.
Proof. destruct n; reflexivity. Qed.
Lemma choose_pos n k : (k <= n)%nat -> 1 <= choose n k.
Proof.
  revert k; induction n; intros [|k] H; simpl; try lia.
  pose proof (IHn k). pose proof (choose_nonneg n (S k)). lia.
Qed.
Lemma choose_absorb n k : Z.of_nat (S k) * choose (S n) (S k) = Z.of_nat (S n) * choose n k.
Proof.
  revert k; induction n; intros k.
  - destruct k as [|[|k]]; simpl choose; lia.
  - change (choose (S (S n)) (S k)) with (choose (S n) k + choose (S n) (S k)).
    destruct k as [|k].
    + rewrite choose_0_r. specialize (IHn O). rewrite choose_0_r in IHn. lia.
    + rewrite Z.mul_add_distr_l. pose proof (IHn (S k)). pose proof (IHn k).
      change (choose (S n) (S k)) with (choose n k + choose n (S k)) in *. lia.
Qed.
(** (k+1) C(n,k+1) = (n-k) C(n,k) *)
Lemma choose_step n k : Z.of_nat (S k) * choose n (S k) = (Z.of_nat n - Z.of_nat k) * choose n k.
Proof.
  pose proof (choose_absorb n k) as A.
  change (choose (S n) (S k)) with (choose n k + choose n (S k)) in A. lia.
Qed.

Lemma Binomial_ok n k : (k <= n)%nat -> Z.of_nat n <= INT_MAX -> binomial_fits n k ->
  Binomial (Z.of_nat n) (Z.of_nat k) = Ok (choose n k).
Proof.
  intros Hk Hn F. unfold Binomial. rewrite Z.gtb_ltb. destruct (Z.ltb_spec (Z.of_nat n) (Z.of_nat k)); [lia|].
  destruct (for_up_inv (fun i r => r = choose n (Z.to_nat (i - 1))) 1 (Z.of_nat k + 1)
    (fun i result => f <- int_ (Z.of_nat n - i + 1) ;; prod <- int_ (result * f) ;; Ok (Z.quot prod i)) 1)
    as [s [E P]].
  - lia.
  - change (Z.to_nat (1 - 1)) with O. rewrite choose_0_r. reflexivity.
  - intros i s Hi ->. set (j := Z.to_nat (i - 1)).
    assert (i = Z.of_nat (S j)) as Ei by lia.
    pose proof (F j ltac:(lia)) as B. pose proof (choose_nonneg n j) as P0.
    pose proof (choose_step n j) as St.
    unfold int_, fits_int. destruct (Z.leb_spec INT_MIN (Z.of_nat n - i + 1)); [|unfold INT_MIN in *; lia].
    destruct (Z.leb_spec (Z.of_nat n - i + 1) INT_MAX); [|unfold INT_MAX in *; lia]. simpl.
    replace (Z.of_nat n - i + 1) with (Z.of_nat n - Z.of_nat j) by lia.
    assert (0 <= (Z.of_nat n - Z.of_nat j) * choose n j) by (apply Z.mul_nonneg_nonneg; lia).
    rewrite (Z.mul_comm (choose n j)).
    destruct (Z.leb_spec INT_MIN ((Z.of_nat n - Z.of_nat j) * choose n j)); [|unfold INT_MIN in *; lia].
    destruct (Z.leb_spec ((Z.of_nat n - Z.of_nat j) * choose n j) INT_MAX); [|lia]. simpl.
    eexists; split; [reflexivity|].
    replace (Z.to_nat (i + 1 - 1)) with (S j) by lia. rewrite <- St, Ei.
    rewrite Z.mul_comm, Z.quot_mul by lia. reflexivity.
  - etransitivity; [exact E|]. f_equal. subst s. f_equal. lia.
Qed.
Lemma Binomial_gt n k : n < k -> Binomial n k = Ok 0.
Proof. intros. unfold Binomial. rewrite Z.gtb_ltb. destruct (Z.ltb_spec n k); [reflexivity|lia]. Qed.
Lemma Binomial_neg n k : k <= 0 -> k <= n -> Binomial n k = Ok 1.
Proof.
  intros. unfold Binomial. rewrite Z.gtb_ltb. destruct (Z.ltb_spec n k); [lia|]. apply for_up_empty. lia.
Qed.

(** rows of Pascal's triangle, for computing *)
Fixpoint next_row (prev : Z) (l : list Z) : list Z :=
  match l with [] => [prev] | a :: t => (prev + a) :: next_row a t end.
Fixpoint row (n : nat) : list Z := match n with O => [1] | S m => next_row 0 (row m) end.
Lemma nth_next_row l : forall prev k,
  nth k (next_row prev l) 0 = nth k (prev :: l) 0 + nth k l 0.
Proof.
  induction l as [|a l IH]; intros prev [|k]; simpl; try lia.
  - rewrite IH. reflexivity.
Qed.
Lemma nth_row n : forall k, nth k (row n) 0 = choose n k.
Proof.
  induction n as [|n IH]; intros k.
  - destruct k as [|[|k]]; reflexivity.
  - simpl row. rewrite nth_next_row. destruct k as [|k]; simpl.
    + rewrite IH, choose_0_r. reflexivity.
    + rewrite !IH. reflexivity.
Qed.
Definition fits_row (n : nat) : bool :=
  let r := row n in
  forallb (fun i => (Z.of_nat n - Z.of_nat i) * nth i r 0 <=? INT_MAX) (seq 0 n).
Lemma fits_row_ok n : fits_row n = true -> forall k, (k <= n)%nat -> binomial_fits n k.
Proof.
  intros F k Hk i Hi. unfold fits_row in F. rewrite forallb_forall in F. specialize (F i).
  rewrite in_seq, nth_row in F. apply Z.leb_le, F. lia.
Qed.
Lemma binomial_fits_29 n k : (n <= 29)%nat -> (k <= n)%nat -> binomial_fits n k.
Proof.
  intros Hn Hk. assert (forallb fits_row (seq 0 30) = true) as F by (vm_compute; reflexivity).
  rewrite forallb_forall in F. specialize (F n). rewrite in_seq in F.
  apply fits_row_ok; auto. apply F. lia.
Qed.
(** the first product that does not fit makes the run undefined *)
Lemma Binomial_overflow n k j : (j < k)%nat -> (k <= n)%nat -> Z.of_nat n <= INT_MAX ->
  binomial_fits n j -> INT_MAX < (Z.of_nat n - Z.of_nat j) * choose n j ->
  Binomial (Z.of_nat n) (Z.of_nat k) = Undefined IntOverflow.
Proof.
  intros Hj Hk Hn F O. unfold Binomial. rewrite Z.gtb_ltb. destruct (Z.ltb_spec (Z.of_nat n) (Z.of_nat k)); [lia|].
  unfold for_up. set (body := fun i result => _).
  replace (Z.to_nat (Z.of_nat k + 1 - 1)) with (j + S (k - j - 1))%nat by lia.
  assert (forall m a b s, loop (a + b) m body s = bind (loop a m body s) (loop b (m + Z.of_nat a) body)) as LA.
  { clear. intros m a; revert m; induction a as [|a IH]; intros m b s.
    - simpl. replace (m + 0) with m by lia. reflexivity.
    - change (loop (S a + b) m body s) with (bind (body m s) (loop (a + b) (m + 1) body)).
      change (loop (S a) m body s) with (bind (body m s) (loop a (m + 1) body)).
      destruct (body m s); cbn [bind]; auto. rewrite IH. f_equal. f_equal. lia. }
  rewrite LA. pose proof (Binomial_ok n j ltac:(lia) Hn F) as B. unfold Binomial in B.
  rewrite Z.gtb_ltb in B. destruct (Z.ltb_spec (Z.of_nat n) (Z.of_nat j)); [lia|].
  unfold for_up in B. fold body in B. replace (Z.to_nat (Z.of_nat j + 1 - 1)) with j in B by lia.
  rewrite B. cbn [bind loop]. unfold body at 1.
  unfold int_, fits_int. replace (Z.of_nat n - (1 + Z.of_nat j) + 1) with (Z.of_nat n - Z.of_nat j) by lia.
  destruct (Z.leb_spec INT_MIN (Z.of_nat n - Z.of_nat j)); [|unfold INT_MIN in *; lia].
  destruct (Z.leb_spec (Z.of_nat n - Z.of_nat j) INT_MAX); [|unfold INT_MAX in *; lia]. simpl.
  rewrite (Z.mul_comm (choose n j)).
  destruct (Z.leb_spec ((Z.of_nat n - Z.of_nat j) * choose n j) INT_MAX); [lia|].
  rewrite andb_false_r. reflexivity.
Qed.
