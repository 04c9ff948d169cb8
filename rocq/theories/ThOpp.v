(** Rounding to nearest is symmetric: opposite arguments give opposite results. *)
From Coq Require Import ZArith Bool Lia Floats.SpecFloat.
From Verif Require Import Outcome Num ModelCore SpecMove.
Open Scope Z_scope.

Lemma aux_opp sx m e l : binary_round_aux 53 1024 (negb sx) m e l = SFopp (binary_round_aux 53 1024 sx m e l).
Proof.
  unfold binary_round_aux. destruct (shr_fexp 53 1024 m e l) as [mrs' e']. destruct (shr_fexp 53 1024 _ e' loc_Exact) as [mrs'' e'']. destruct (shr_m mrs''); cbn; try reflexivity.
  destruct (e'' <=? 971); reflexivity.
Qed.
Lemma round_opp sx m e : binary_round 53 1024 (negb sx) m e = SFopp (binary_round 53 1024 sx m e).
Proof. unfold binary_round. destruct (shl_align m e _) as [mz ez]. apply aux_opp. Qed.
Lemma norm_opp z e s : z <> 0 -> binary_normalize 53 1024 (- z) e s = SFopp (binary_normalize 53 1024 z e s).
Proof. destruct z as [|z|z]; intros N; [destruct (N eq_refl)|..]; cbn [Z.opp binary_normalize]; [apply (round_opp false)|apply (round_opp true)]. Qed.
Lemma opp_refl x : opposite x (SFopp x).
Proof. left. reflexivity. Qed.
Lemma opp_zero s s' : opposite (S754_zero s) (S754_zero s').
Proof. right. split; eexists; reflexivity. Qed.
Lemma opp_add x y x' y' : opposite x x' -> opposite y y' -> opposite (nadd x y) (nadd x' y').
Proof.
  cbn [nadd Num_b64].
  assert (forall x y, opposite (SFadd 53 1024 x y) (SFadd 53 1024 (SFopp x) (SFopp y))) as B.
  { clear. intros [s|s| |s m e] [s'|s'| |s' m' e']; cbn [SFopp]; try (apply opp_refl); try (left; reflexivity).
    - cbn. destruct s, s'; apply opp_zero.
    - destruct s, s'; left; reflexivity.
    - unfold SFadd. set (ez := Z.min e e'). set (A := Zpos (fst (shl_align m e ez))). set (B := Zpos (fst (shl_align m' e' ez))).
      replace (cond_Zopp (negb s) A + cond_Zopp (negb s') B) with (- (cond_Zopp s A + cond_Zopp s' B)) by (destruct s, s'; cbn [negb cond_Zopp]; lia).
      destruct (Z.eq_dec (cond_Zopp s A + cond_Zopp s' B) 0) as [->|N]; [apply opp_zero|]. left. apply norm_opp. exact N. }
  intros [->|[[s ->] [s' ->]]] [->|[[t ->] [t' ->]]].
  - apply B.
  - destruct x as [r|r| |r m e]; [destruct t, t', r; apply opp_zero|left; reflexivity..].
  - destruct y as [r|r| |r m e]; [destruct s, s', r; apply opp_zero|left; reflexivity..].
  - destruct s, s', t, t'; apply opp_zero.
Qed.
Lemma sub_add x y : SFsub 53 1024 x y = SFadd 53 1024 x (SFopp y).
Proof.
  destruct x as [s|s| |s m e], y as [t|t| |t m' e']; cbn [SFsub SFadd SFopp]; try reflexivity; try (destruct s, t; reflexivity).
Qed.
Lemma opp_opp x y : opposite x y -> opposite (SFopp x) (SFopp y).
Proof. intros [->|[[s ->] [s' ->]]]; [left; reflexivity|]. cbn. apply opp_zero. Qed.
Lemma opp_sub x y x' y' : opposite x x' -> opposite y y' -> opposite (nsub x y) (nsub x' y').
Proof. intros Hx Hy. cbn [nsub Num_b64]. rewrite !sub_add. apply opp_add; [exact Hx|]. apply opp_opp. exact Hy. Qed.
Lemma xorb_neg a b : xorb a (negb b) = negb (xorb a b).
Proof. destruct a, b; reflexivity. Qed.
Lemma opp_mul_r s x x' : opposite x x' -> opposite (nmul s x) (nmul s x').
Proof.
  cbn [nmul Num_b64]. intros [->|[[t ->] [t' ->]]]; [left|destruct s as [r|r| |r m e]; [apply opp_zero|left; reflexivity|left; reflexivity|apply opp_zero]].
  destruct s as [s|s| |s m e], x as [t|t| |t m' e']; cbn [SFmul SFopp nopp Num_b64]; rewrite ?xorb_neg; try reflexivity. apply aux_opp.
Qed.
Lemma mul_comm x y : SFmul 53 1024 x y = SFmul 53 1024 y x.
Proof. destruct x as [s|s| |s m e], y as [t|t| |t m' e']; cbn [SFmul]; rewrite ?(xorb_comm s t); try reflexivity. rewrite Pos.mul_comm, Z.add_comm. reflexivity. Qed.
Lemma opp_mul_l s x x' : opposite x x' -> opposite (nmul x s) (nmul x' s).
Proof. intros Hx. cbn [nmul Num_b64]. rewrite (mul_comm x), (mul_comm x'). apply (opp_mul_r s). exact Hx. Qed.
Lemma opp_div s x x' : opposite x x' -> opposite (SFdiv 53 1024 x s) (SFdiv 53 1024 x' s).
Proof.
  intros [->|[[t ->] [t' ->]]]; [left|destruct s as [r|r| |r m e]; [left; reflexivity|apply opp_zero|left; reflexivity|apply opp_zero]].
  destruct s as [s|s| |s m e], x as [t|t| |t m' e']; cbn [SFdiv SFopp nopp Num_b64]; rewrite ?(xorb_comm _ s), ?xorb_neg; try reflexivity.
  destruct (SFdiv_core_binary 53 1024 (Zpos m') e' (Zpos m) e) as [[mz ez] lz]. apply aux_opp.
Qed.
