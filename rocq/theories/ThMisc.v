(** IsRational and TrimString. *)
From Coq Require Import Reals ZArith Lia Bool List Ascii NArith.
From Verif Require Import Outcome Num ModelCore ModelCurve ModelSurface ModelSerial SpecCore ThOutcome ThReal.
Import ListNotations.

Definition unequal_weights (l : list (vec4 R)) : Prop :=
  exists p q, In p l /\ In q l /\ w4 p <> w4 q.
Lemma rational_list (l : list (vec4 R)) :
  match l with [] => false | p0 :: rest => existsb (fun p => nneb (w4 p) (w4 p0)) rest end = true
  <-> unequal_weights l.
Proof.
  destruct l as [|p0 rest].
  - split; [discriminate|]. intros [p [q [[] _]]].
  - rewrite existsb_exists. unfold nneb. norm_R. split.
    + intros [p [Hp Ep]]. apply negb_true_iff, Reqb_false in Ep. exists p, p0. simpl; auto.
    + intros [p [q [Hp [Hq N]]]].
      destruct (Req_EM_T (w4 p) (w4 p0)) as [E|E].
      * exists q. split; [|apply negb_true_iff, Reqb_false; congruence].
        destruct Hq as [<-|Hq]; [congruence|assumption].
      * exists p. split; [|apply negb_true_iff, Reqb_false; assumption].
        destruct Hp as [<-|Hp]; [congruence|assumption].
Qed.

Lemma isspace_white c : isspace c = true <-> white c.
Proof.
  destruct c as [[] [] [] [] [] [] [] []]; vm_compute; split; intros H; try discriminate; try reflexivity; try tauto;
  repeat (destruct H as [H|H]; try discriminate); try contradiction.
Qed.
Lemma isspace_nonwhite c : isspace c = false <-> ~ white c.
Proof. rewrite <- isspace_white. destruct (isspace c); split; congruence. Qed.

Lemma drop_spaces_spec s : exists a, s = a ++ drop_spaces s /\ Forall white a /\
  forall c r, drop_spaces s = c :: r -> ~ white c.
Proof.
  induction s as [|c s IH]; simpl.
  - exists []. repeat split; auto. discriminate.
  - destruct (isspace c) eqn:E.
    + destruct IH as [a [E1 [W N]]]. exists (c :: a). simpl. rewrite <- E1. repeat split; auto.
      constructor; auto. apply isspace_white; assumption.
    + exists []. repeat split; auto. intros c' r E'. inversion E'; subst. apply isspace_nonwhite; assumption.
Qed.
Lemma drop_spaces_app a t : Forall white a -> (forall c r, t = c :: r -> ~ white c) -> drop_spaces (a ++ t) = t.
Proof.
  intros W N. induction W as [|c a Hc W IH]; simpl.
  - destruct t as [|c t]; [reflexivity|]. simpl. specialize (N c t eq_refl).
    apply isspace_nonwhite in N. rewrite N. reflexivity.
  - apply isspace_white in Hc. rewrite Hc. assumption.
Qed.
Lemma drop_spaces_all a : Forall white a -> drop_spaces a = [].
Proof. intros W. rewrite <- (app_nil_r a) at 1. apply drop_spaces_app; auto. discriminate. Qed.

Lemma TrimString_trimmed s : trimmed s (TrimString s).
Proof.
  unfold TrimString. destruct (drop_spaces_spec s) as [a [E1 [W1 N1]]].
  destruct (drop_spaces_spec (rev (drop_spaces s))) as [b [E2 [W2 N2]]].
  set (t := drop_spaces (rev (drop_spaces s))) in *.
  assert (drop_spaces s = rev t ++ rev b) as E3.
  { rewrite <- rev_app_distr, <- E2, rev_involutive. reflexivity. }
  exists a, (rev b). repeat split; auto.
  - rewrite E1 at 1. rewrite E3. reflexivity.
  - apply Forall_rev; assumption.
  - intros c r E. apply (N1 c (r ++ rev b)). rewrite E3, E. reflexivity.
  - intros c r E. apply (N2 c (rev r)). rewrite <- (rev_involutive t), E, rev_app_distr. reflexivity.
Qed.
Lemma trimmed_unique s t : trimmed s t -> t = TrimString s.
Proof.
  intros [a [b [-> [Wa [Wb [N1 N2]]]]]]. unfold TrimString.
  destruct t as [|c t].
  - simpl. rewrite (drop_spaces_all (a ++ b)) by (apply Forall_app; auto). reflexivity.
  - rewrite drop_spaces_app; auto.
    + rewrite rev_app_distr, drop_spaces_app.
      * symmetry; apply rev_involutive.
      * apply Forall_rev; assumption.
      * intros c' r E. apply (N2 c' (rev r)). rewrite <- (rev_involutive (c :: t)), E. reflexivity.
    + intros c' r E. inversion E; subst. eapply N1; reflexivity.
Qed.
Lemma TrimString_spec s t : trimmed s t <-> t = TrimString s.
Proof. split; [apply trimmed_unique|intros ->; apply TrimString_trimmed]. Qed.
Lemma TrimString_idem s : TrimString (TrimString s) = TrimString s.
Proof.
  symmetry. apply trimmed_unique. destruct (TrimString_trimmed s) as [a [b [_ [_ [_ [N1 N2]]]]]].
  exists [], []. rewrite app_nil_r. repeat split; auto.
Qed.
