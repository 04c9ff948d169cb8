(** Two runs that end the same way: rules for every construct of the model. *)
From Coq Require Import Reals ZArith List Lia Bool.
From Verif Require Import Outcome Num ModelCore ModelAlgo ModelCurve ModelSurface SpecMove ThOutcome ThVec.
Import ListNotations.
Open Scope Z_scope.

Notation so := same_outcome.
Lemma so_ok {A B} (Q : A -> B -> Prop) a b : Q a b -> so Q (Ok a) (Ok b).
Proof. intros H. exact H. Qed.
Lemma so_refl {A} (m : outcome A) : so eq m m.
Proof. destruct m; cbn; auto. Qed.
Lemma so_refl_of {A} (Q : A -> A -> Prop) (m : outcome A) : (forall a, Q a a) -> so Q m m.
Proof. intros. destruct m; cbn; auto. Qed.
Lemma so_eq {A} (m m' : outcome A) : so eq m m' <-> m = m'.
Proof. split; [|intros ->; apply so_refl]. destruct m, m'; cbn; intros; try contradiction; congruence. Qed.
Lemma so_bind {A B A' B'} (Q : A -> B -> Prop) (R : A' -> B' -> Prop) m m' f f' :
  so Q m m' -> (forall a b, Q a b -> so R (f a) (f' b)) -> so R (bind m f) (bind m' f').
Proof. destruct m, m'; cbn; intros Hm Hf; try contradiction; auto. Qed.
Lemma so_same {A A' B'} (R : A' -> B' -> Prop) (m : outcome A) f f' : (forall a, so R (f a) (f' a)) -> so R (bind m f) (bind m f').
Proof. intros Hf. destruct m; cbn; auto. Qed.
Lemma so_weak {A B} (Q R : A -> B -> Prop) m m' : (forall a b, Q a b -> R a b) -> so Q m m' -> so R m m'.
Proof. intros HQ. destruct m, m'; cbn; auto. Qed.
Lemma so_if {A B} (Q : A -> B -> Prop) (b : bool) m1 m2 m1' m2' : so Q m1 m1' -> so Q m2 m2' -> so Q (if b then m1 else m2) (if b then m1' else m2').
Proof. destruct b; auto. Qed.
Lemma F2_len {A B} (Q : A -> B -> Prop) l l' : Forall2 Q l l' -> len l = len l'.
Proof. induction 1 as [|x y l l' _ _ IH]; [reflexivity|]. rewrite !len_cons, IH. reflexivity. Qed.
Lemma so_vget {A B} (Q : A -> B -> Prop) l l' i : Forall2 Q l l' -> so Q (vget l i) (vget l' i).
Proof.
  intros F. unfold vget. destruct (i <? 0); [reflexivity|]. generalize (Z.to_nat i). clear i. intros n. revert n. induction F as [|x y l l' Q1 F IH]; intros n.
  - destruct n; reflexivity.
  - destruct n as [|n]; cbn [nth_error]; [exact Q1|apply IH].
Qed.
Lemma F2_update {A B} (Q : A -> B -> Prop) l l' x y : Forall2 Q l l' -> Q x y -> forall n, Forall2 Q (update n x l) (update n y l').
Proof. intros F Qx. induction F as [|a b l l' Q1 F IH]; intros n; [destruct n; constructor|]. destruct n as [|n]; cbn [update]; constructor; auto. Qed.
Lemma so_vset {A B} (Q : A -> B -> Prop) l l' i x y : Forall2 Q l l' -> Q x y -> so (Forall2 Q) (vset l i x) (vset l' i y).
Proof. intros F Qx. unfold vset. rewrite (F2_len Q l l' F). destruct (_ && _); [|reflexivity]. apply F2_update; assumption. Qed.
Lemma F2_repeat {A B} (Q : A -> B -> Prop) x y n : Q x y -> Forall2 Q (repeat x n) (repeat y n).
Proof. intros Qx. induction n; cbn [repeat]; constructor; assumption. Qed.
Lemma F2_firstn {A B} (Q : A -> B -> Prop) l l' : Forall2 Q l l' -> forall n, Forall2 Q (firstn n l) (firstn n l').
Proof. induction 1; intros [|n]; cbn [firstn]; constructor; auto. Qed.
Lemma F2_skipn {A B} (Q : A -> B -> Prop) l l' : Forall2 Q l l' -> forall n, Forall2 Q (skipn n l) (skipn n l').
Proof. induction 1; intros [|n]; cbn [skipn]; try constructor; auto. Qed.
Lemma F2_map {A B A' B'} (Q : A -> B -> Prop) (R : A' -> B' -> Prop) f g l l' : (forall a b, Q a b -> R (f a) (g b)) -> Forall2 Q l l' -> Forall2 R (map f l) (map g l').
Proof. intros Hf. induction 1; cbn [map]; constructor; auto. Qed.
Lemma so_vmake {A B} (Q : A -> B -> Prop) n x y : Q x y -> so (Forall2 Q) (vmake n x) (vmake n y).
Proof. intros Qx. unfold vmake. destruct (n <? 0); [reflexivity|]. apply F2_repeat. exact Qx. Qed.
Lemma so_vinsert {A B} (Q : A -> B -> Prop) l l' i n x y : Forall2 Q l l' -> Q x y -> so (Forall2 Q) (vinsert l i n x) (vinsert l' i n y).
Proof.
  intros F Qx. unfold vinsert. rewrite (F2_len Q l l' F). destruct (_ && _); [|reflexivity]. destruct (n <? 0); [reflexivity|].
  apply Forall2_app; [apply F2_firstn; exact F|]. apply Forall2_app; [apply F2_repeat; exact Qx|apply F2_skipn; exact F].
Qed.
(** options: both empty or both filled with related values *)
Definition ro {A B} (Q : A -> B -> Prop) (o : option A) (o' : option B) : Prop := match o, o' with Some a, Some b => Q a b | None, None => True | _, _ => False end.
Lemma so_uninit {A B} (Q : A -> B -> Prop) n : so (Forall2 (ro Q)) (uninit A n) (uninit B n).
Proof. unfold uninit. destruct (n <? 0); [reflexivity|]. apply F2_repeat. exact I. Qed.
Lemma so_ugets {A B} (Q : A -> B -> Prop) l l' i : Forall2 (ro Q) l l' -> so Q (ugets l i) (ugets l' i).
Proof. intros F. unfold ugets. eapply so_bind; [apply (so_vget (ro Q)); exact F|]. intros [x|] [y|] O; try contradiction; [exact O|reflexivity]. Qed.
Lemma so_usets {A B} (Q : A -> B -> Prop) l l' i x y : Forall2 (ro Q) l l' -> Q x y -> so (Forall2 (ro Q)) (usets l i x) (usets l' i y).
Proof. intros F Qx. apply so_vset; [exact F|exact Qx]. Qed.
Lemma so_freeze {A B} (Q : A -> B -> Prop) l l' : Forall2 (ro Q) l l' -> so (Forall2 Q) (freeze l) (freeze l').
Proof.
  induction 1 as [|o o' l l' O F IH]; cbn [freeze]; [constructor|]. destruct o as [x|], o' as [y|]; try contradiction; [|reflexivity].
  eapply so_bind; [exact IH|]. intros a b Q1. constructor; [exact O|exact Q1].
Qed.
Lemma so_vresize {A B} (Q : A -> B -> Prop) l l' n x y : Forall2 Q l l' -> Q x y -> so (Forall2 Q) (vresize l n x) (vresize l' n y).
Proof.
  intros F Qx. unfold vresize. destruct (n <? 0); [reflexivity|]. rewrite (F2_len Q l l' F). apply Forall2_app; [apply F2_firstn; exact F|apply F2_repeat; exact Qx].
Qed.
Lemma so_mapM {A B A' B'} (Q : A -> B -> Prop) (R : A' -> B' -> Prop) f f' l l' : (forall a b, Q a b -> so R (f a) (f' b)) -> Forall2 Q l l' ->
  so (Forall2 R) (mapM f l) (mapM f' l').
Proof.
  intros Hf. induction 1 as [|a b l l' Q1 F IH]; cbn [mapM]; [constructor|]. eapply so_bind; [apply Hf; exact Q1|]. intros x y R1.
  eapply so_bind; [exact IH|]. intros r r' R2. constructor; assumption.
Qed.
Lemma so_foldM {A S S'} (Q : S -> S' -> Prop) f f' (l : list A) : (forall x s s', Q s s' -> so Q (f s x) (f' s' x)) -> forall s s', Q s s' -> so Q (foldM f l s) (foldM f' l s').
Proof. intros Hf. induction l as [|x l IH]; intros s s' Hs; cbn [foldM]; [exact Hs|]. eapply so_bind; [apply Hf; exact Hs|]. exact IH. Qed.
Lemma so_foldM2 {A B S S'} (P : A -> B -> Prop) (Q : S -> S' -> Prop) f f' l l' : (forall x y s s', P x y -> Q s s' -> so Q (f s x) (f' s' y)) -> Forall2 P l l' ->
  forall s s', Q s s' -> so Q (foldM f l s) (foldM f' l' s').
Proof. intros Hf. induction 1 as [|x y l l' Pxy F IH]; intros s s' Hs; cbn [foldM]; [exact Hs|]. eapply so_bind; [apply Hf; eassumption|]. exact IH. Qed.
Lemma so_loop {S S'} (Q : S -> S' -> Prop) body body' : (forall i s s', Q s s' -> so Q (body i s) (body' i s')) ->
  forall n i s s', Q s s' -> so Q (loop n i body s) (loop n i body' s').
Proof.
  intros Hb. induction n as [|n IH]; intros i s s' Hs; cbn [loop]; [exact Hs|]. eapply so_bind; [apply Hb; exact Hs|]. intros a b Q1. apply IH. exact Q1.
Qed.
Lemma so_for {S S'} (Q : S -> S' -> Prop) lo hi body body' s s' : Q s s' -> (forall i s s', Q s s' -> so Q (body i s) (body' i s')) ->
  so Q (for_up lo hi body s) (for_up lo hi body' s').
Proof. intros Hs Hb. unfold for_up. apply so_loop; assumption. Qed.
(** the relation may depend on the counter *)
Lemma so_for_at {S S'} (Q : Z -> S -> S' -> Prop) lo hi body body' s s' : Q lo s s' -> (forall i s s', lo <= i < hi -> Q i s s' -> so (Q (i + 1)) (body i s) (body' i s')) ->
  so (Q (Z.max lo hi)) (for_up lo hi body s) (for_up lo hi body' s').
Proof.
  intros Hs Hb. unfold for_up. remember (Z.to_nat (hi - lo)) as n eqn:En. revert lo En s s' Hs Hb. induction n as [|n IH]; intros lo En s s' Hs Hb; cbn [loop].
  - cbn. replace (Z.max lo hi) with lo by lia. exact Hs.
  - eapply so_bind; [apply Hb; [lia|exact Hs]|]. intros a b Q1. replace (Z.max lo hi) with (Z.max (lo + 1) hi) by lia. apply IH; [lia|exact Q1|]. intros i t t' Hi. apply Hb. lia.
Qed.
Lemma so_loop_down {S S'} (Q : S -> S' -> Prop) body body' : (forall i s s', Q s s' -> so Q (body i s) (body' i s')) ->
  forall n i s s', Q s s' -> so Q (loop_down n i body s) (loop_down n i body' s').
Proof.
  intros Hb. induction n as [|n IH]; intros i s s' Hs; cbn [loop_down]; [exact Hs|]. eapply so_bind; [apply Hb; exact Hs|]. intros a b Q1. apply IH. exact Q1.
Qed.
Lemma so_down {S S'} (Q : S -> S' -> Prop) hi lo body body' s s' : Q s s' -> (forall i s s', Q s s' -> so Q (body i s) (body' i s')) ->
  so Q (for_down hi lo body s) (for_down hi lo body' s').
Proof. intros Hs Hb. unfold for_down. apply so_loop_down; assumption. Qed.
Lemma so_while {S S'} (Q : S -> S' -> Prop) cond cond' body body' : (forall s s', Q s s' -> so eq (cond s) (cond' s')) ->
  (forall s s', Q s s' -> so Q (body s) (body' s')) -> forall n s s', Q s s' -> so Q (while_ n cond body s) (while_ n cond' body' s').
Proof.
  intros Hc Hb. induction n as [|n IH]; intros s s' Hs; cbn [while_]; (eapply so_bind; [apply Hc; exact Hs|]); intros [|] ? <-; try exact Hs; try exact I.
  eapply so_bind; [apply Hb; exact Hs|]. exact IH.
Qed.
Lemma so_tabulate {A B} (Q : A -> B -> Prop) lo hi f f' : (forall i, so Q (f i) (f' i)) -> so (Forall2 Q) (tabulate lo hi f) (tabulate lo hi f').
Proof.
  intros Hf. unfold tabulate. generalize (Z.to_nat (hi - lo)). intros n. revert lo. induction n as [|n IH]; intros lo; cbn [tabulate_nat]; [constructor|].
  eapply so_bind; [apply Hf|]. intros a b Qa. eapply so_bind; [apply IH|]. intros l l' F. constructor; assumption.
Qed.
(** pairs *)
Definition rp {A A' B B'} (Q : A -> A' -> Prop) (R : B -> B' -> Prop) (x : A * B) (y : A' * B') : Prop := Q (fst x) (fst y) /\ R (snd x) (snd y).

(** ** Grids *)
Section GridRules.
  Context {A B : Type} (Q : A -> B -> Prop).
  Lemma so_Grid_make u v x y : Q x y -> so (grid_by Q) (Grid_make u v x) (Grid_make u v y).
  Proof. intros Qx. unfold Grid_make. apply so_same. intros n. eapply so_bind; [apply so_vmake; exact Qx|]. intros l l' F. repeat split; assumption. Qed.
  Lemma so_Grid_Get g h u v : grid_by Q g h -> so Q (Grid_Get g u v) (Grid_Get h u v).
  Proof. intros [E1 [E2 F]]. unfold Grid_Get. rewrite E1, E2. apply so_same. intros _. apply so_vget. exact F. Qed.
  Lemma so_Grid_Set g h u v x y : grid_by Q g h -> Q x y -> so (grid_by Q) (Grid_Set g u v x) (Grid_Set h u v y).
  Proof. intros [E1 [E2 F]] Qx. unfold Grid_Set. rewrite E1, E2. apply so_same. intros _. eapply so_bind; [apply so_vset; eassumption|]. intros l l' F'. repeat split; assumption. Qed.
  Lemma so_Grid_GetU g h u : grid_by Q g h -> so (Forall2 Q) (Grid_GetU g u) (Grid_GetU h u).
  Proof. intros [E1 [E2 F]]. unfold Grid_GetU. rewrite E1, E2. apply so_same. intros _. apply so_same. intros _. apply so_tabulate. intros i. apply so_vget. exact F. Qed.
  Lemma so_Grid_GetV g h u : grid_by Q g h -> so (Forall2 Q) (Grid_GetV g u) (Grid_GetV h u).
  Proof. intros [E1 [E2 F]]. unfold Grid_GetV. rewrite E1, E2. apply so_same. intros _. apply so_same. intros _. apply so_tabulate. intros i. apply so_vget. exact F. Qed.
  Lemma so_Grid_SetU g h u l l' : grid_by Q g h -> Forall2 Q l l' -> so (grid_by Q) (Grid_SetU g u l) (Grid_SetU h u l').
  Proof.
    intros [E1 [E2 F]] Fl. unfold Grid_SetU. rewrite E1, E2, (F2_len Q l l' Fl). apply so_same. intros _. apply so_same. intros _.
    eapply so_bind; [apply (so_for (Forall2 Q)); [exact F|]|intros a b F'; repeat split; assumption].
    intros i s s' Fs. eapply so_bind; [apply (so_vget Q); exact Fl|]. intros x y Qx. apply so_vset; assumption.
  Qed.
  Lemma so_Grid_SetV g h u l l' : grid_by Q g h -> Forall2 Q l l' -> so (grid_by Q) (Grid_SetV g u l) (Grid_SetV h u l').
  Proof.
    intros [E1 [E2 F]] Fl. unfold Grid_SetV. rewrite E1, E2, (F2_len Q l l' Fl). apply so_same. intros _. apply so_same. intros _.
    eapply so_bind; [apply (so_for (Forall2 Q)); [exact F|]|intros a b F'; repeat split; assumption].
    intros i s s' Fs. eapply so_bind; [apply (so_vget Q); exact Fl|]. intros x y Qx. apply so_vset; assumption.
  Qed.
  Lemma so_Grid_InsertV g h v x y : grid_by Q g h -> Q x y -> so (grid_by Q) (Grid_InsertV g v x) (Grid_InsertV h v y).
  Proof. intros [E1 [E2 F]] Qx. unfold Grid_InsertV. rewrite E1, E2. apply so_same. intros _. eapply so_bind; [apply so_vinsert; eassumption|]. intros l l' F'. repeat split; assumption. Qed.
  Lemma so_Grid_InsertU junk junk' g h u x y : Q junk junk' -> grid_by Q g h -> Q x y -> so (grid_by Q) (Grid_InsertU junk g u x) (Grid_InsertU junk' h u y).
  Proof.
    intros Qj [E1 [E2 F]] Qx. unfold Grid_InsertU. rewrite E1, E2, (F2_len Q _ _ F). apply so_same. intros _. cbv zeta. apply so_same. intros _.
    eapply so_bind; [apply (so_down (rp (Forall2 Q) eq))|].
    - split; [|reflexivity]. cbn [fst]. apply Forall2_app; [apply F2_firstn; exact F|apply F2_repeat; exact Qj].
    - assert (forall hi lo st st', rp (Forall2 Q) eq st st' -> so (rp (Forall2 Q) eq)
        (for_down hi lo (fun i '(vals, float_idx) => x <- vget vals float_idx ;; vals <- vset vals i x ;; Ok (vals, float_idx - 1)) st)
        (for_down hi lo (fun i '(vals, float_idx) => x <- vget vals float_idx ;; vals <- vset vals i x ;; Ok (vals, float_idx - 1)) st')) as Mv.
      { intros hi lo st st' R. apply (so_down (rp (Forall2 Q) eq)); [exact R|]. intros i [l f] [l' f'] [F1 F2]. cbn [fst snd] in *. subst f'.
        eapply so_bind; [apply (so_vget Q); exact F1|]. intros a b Qa. eapply so_bind; [apply so_vset; eassumption|]. intros m m' Fm. split; [exact Fm|reflexivity]. }
      intros it [l f] [l' f'] R. cbn beta iota. eapply so_bind; [apply Mv; exact R|]. intros st st' R1. eapply so_bind; [apply Mv; exact R1|].
      intros [l1 f1] [l1' f1'] [F1 F2]. cbn [fst snd] in *. subst f1'. eapply so_bind; [apply so_vset; eassumption|]. intros m m' Fm. split; [exact Fm|reflexivity].
    - intros [l f] [l' f'] [F1 _]. repeat split; cbn [UCount VCount Values]; assumption.
  Qed.
End GridRules.
Lemma so_grid_uninit {T} `{Num T} (Q : vec4 T -> vec4 T -> Prop) u v : so (grid_by (ro Q)) (grid_uninit u v) (grid_uninit u v).
Proof. unfold grid_uninit. apply so_Grid_make. exact I. Qed.
Lemma so_grid_freeze {T} `{Num T} (Q : vec4 T -> vec4 T -> Prop) g h : grid_by (ro Q) g h -> so (grid_by Q) (grid_freeze g) (grid_freeze h).
Proof. intros [E1 [E2 F]]. unfold grid_freeze. eapply so_bind; [apply so_freeze; exact F|]. intros l l' F'. repeat split; assumption. Qed.
