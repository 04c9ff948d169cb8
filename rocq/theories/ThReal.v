(** The real instance: reflection of the comparisons, normalisation tactics. *)
From Coq Require Import Reals Qreals Lra ZArith Lia Bool List.
From Verif Require Import Outcome Num ThOutcome.
Import ListNotations.
Open Scope R_scope.

#[global] Arguments Rltb : simpl never.
#[global] Arguments Rleb : simpl never.
#[global] Arguments Reqb : simpl never.
#[global] Arguments Q2R : simpl never.
#[global] Arguments lit_1e_6 {T H} : simpl never.
#[global] Arguments nabs {T H} : simpl never.
#[global] Arguments nmin {T H} : simpl never.
#[global] Arguments nmax {T H} : simpl never.

Lemma Rltb_spec x y : reflect (x < y) (Rltb x y).
Proof. unfold Rltb. destruct (Rlt_dec x y); constructor; auto. Qed.
Lemma Rleb_spec x y : reflect (x <= y) (Rleb x y).
Proof. unfold Rleb. destruct (Rle_dec x y); constructor; auto. Qed.
Lemma Reqb_spec x y : reflect (x = y) (Reqb x y).
Proof. unfold Reqb. destruct (Req_EM_T x y); constructor; auto. Qed.

Lemma Rltb_true x y : Rltb x y = true <-> x < y.
Proof. destruct (Rltb_spec x y); split; congruence. Qed.
Lemma Rltb_false x y : Rltb x y = false <-> ~ x < y.
Proof. destruct (Rltb_spec x y); split; congruence. Qed.
Lemma Rleb_true x y : Rleb x y = true <-> x <= y.
Proof. destruct (Rleb_spec x y); split; congruence. Qed.
Lemma Rleb_false x y : Rleb x y = false <-> ~ x <= y.
Proof. destruct (Rleb_spec x y); split; congruence. Qed.
Lemma Reqb_true x y : Reqb x y = true <-> x = y.
Proof. destruct (Reqb_spec x y); split; congruence. Qed.
Lemma Reqb_false x y : Reqb x y = false <-> x <> y.
Proof. destruct (Reqb_spec x y); split; congruence. Qed.

Definition Rdivo (x y : R) : outcome R := if Req_EM_T y 0 then NotFinite else Ok (x / y).
Lemma Rdivo_ok x y : y <> 0 -> Rdivo x y = Ok (x / y).
Proof. unfold Rdivo. destruct (Req_EM_T y 0); tauto. Qed.
Lemma Rdivo_inv x y z : Rdivo x y = Ok z -> y <> 0 /\ z = x / y.
Proof. unfold Rdivo. destruct (Req_EM_T y 0); [discriminate|]. intros E; inversion E; auto. Qed.

(** Put every operation of the real instance in its plain form. *)
Ltac norm_R :=
  unfold ngtb, ngeb, nneb, nabs, nmin, nmax, nclamp in *;
  change (@nltb R Num_R) with Rltb in *; change (@nleb R Num_R) with Rleb in *;
  change (@neqb R Num_R) with Reqb in *; change (@ndiv R Num_R) with Rdivo in *;
  change (@n0 R Num_R) with 0 in *; change (@n1 R Num_R) with 1 in *;
  change (@nadd R Num_R) with Rplus in *; change (@nsub R Num_R) with Rminus in *;
  change (@nmul R Num_R) with Rmult in *; change (@nopp R Num_R) with Ropp in *;
  change (@nofZ R Num_R) with IZR in *; change (@nlit R Num_R) with Q2R in *;
  change (@nsqrt R Num_R) with sqrt in *.

Ltac bool_R :=
  repeat match goal with
  | |- context [Rltb ?a ?b] => destruct (Rltb_spec a b)
  | |- context [Rleb ?a ?b] => destruct (Rleb_spec a b)
  | |- context [Reqb ?a ?b] => destruct (Reqb_spec a b)
  end.

Lemma Rabs_if x : (if Rltb x 0 then - x else x) = Rabs x.
Proof.
  destruct (Rltb_spec x 0).
  - rewrite Rabs_left; lra.
  - rewrite Rabs_right; lra.
Qed.
Lemma Rmax_if x y : (if Rltb x y then y else x) = Rmax x y.
Proof. unfold Rmax. destruct (Rltb_spec x y), (Rle_dec x y); lra. Qed.
Lemma Rmin_if x y : (if Rltb y x then y else x) = Rmin x y.
Proof. unfold Rmin. destruct (Rltb_spec y x), (Rle_dec x y); lra. Qed.
Lemma lit_1e_6_R : @lit_1e_6 R Num_R = 1 / 1000000.
Proof. unfold lit_1e_6. norm_R. unfold Q2R. simpl. lra. Qed.
