(** Concrete training data for FaProperties. *)
From Coq Require Import String.
From Verif Require Import Base BaseLemmas ParamModel FaModel FaSpec FaProofs FaProofs2 FaProofs3 FaProofs4 FaProofs5 FaProofs6 FaProofs7 FaProofs8 FaProofs9 FaProofs10 FaProofs11 FaProofs12 FaProofs13 FaProofs14 FaProofs15.
Open Scope list_scope.
Open Scope R_scope.

Definition no_fa : fa := new_fa [].
(** the corners of a square *)
Definition sq : list (list R) := [[0; 0]; [1; 0]; [0; 1]; [1; 1]].
Definition sqy : list R := [1; 2; 3; 5].
Lemma sq_samples : samples 2 sq.
Proof. split; [discriminate|]. repeat constructor. Qed.
Lemma sq_grid : grid_data 2 sq sqy [2; 2]%nat 0.5.
Proof.
  split; [lia|exact sq_samples|reflexivity|split; [reflexivity|repeat constructor]| |lra].
  intros [|[|k]] Hk; [right|right|lia].
  - exists [0; 0], [1; 0]. cbn. repeat split; auto; lra.
  - exists [0; 0], [0; 1]. cbn. repeat split; auto; lra.
Qed.
Lemma sq_det : determined true 2 sq (ones 4).
Proof.
  intros s o L _ H. destruct s as [|a [|b [|]]]; try discriminate.
  pose proof (H 0%nat ltac:(cbn; lia) ltac:(cbn; lra)) as H0. pose proof (H 1%nat ltac:(cbn; lia) ltac:(cbn; lra)) as H1.
  pose proof (H 2%nat ltac:(cbn; lia) ltac:(cbn; lra)) as H2. unfold affine, dot in *. cbn in *.
  assert (o = 0) by lra. assert (a = 0) by lra. assert (b = 0) by lra. subst. split; reflexivity.
Qed.
Lemma sq_nodup : NoDup sq.
Proof.
  unfold sq. repeat constructor; cbn; intros H; repeat match goal with H : _ \/ _ |- _ => destruct H end; try contradiction;
    match goal with H : _ = _ |- _ => injection H; intros; lra end.
Qed.
(** two points *)
Definition two : list (list R) := [[0]; [1]].
Lemma two_samples : samples 1 two.
Proof. split; [discriminate|]. repeat constructor. Qed.
Lemma two_grid n : (0 < n)%nat -> grid_data 1 two [0; 1] [n] 0.5.
Proof.
  intros N. split; [lia|exact two_samples|reflexivity|split; [reflexivity|repeat constructor; assumption]| |lra].
  intros [|k] Hk; [|lia]. right. exists [0], [1]. cbn. repeat split; auto; lra.
Qed.
Lemma two_det : determined true 1 two (ones 2).
Proof.
  intros s o L _ H. destruct s as [|a [|]]; try discriminate.
  pose proof (H 0%nat ltac:(cbn; lia) ltac:(cbn; lra)) as H0. pose proof (H 1%nat ltac:(cbn; lia) ltac:(cbn; lra)) as H1.
  unfold affine, dot in *. cbn in *. assert (o = 0) by lra. assert (a = 0) by lra. subst. split; reflexivity.
Qed.
Lemma two_data : weighted_data 1 two [0; 1] (ones 2).
Proof. split; [exact two_samples|]. repeat split; try reflexivity. repeat constructor; lra. Qed.
Lemma is_ok_train f fn i : is_ok (snd (train f fn i)) -> exists f', train f fn i = (f', Ok tt).
Proof. intros [[] E]. destruct (train f fn i) as [f' r]. exists f'. cbn in E. now rewrite E. Qed.

(** C69: the fit for two points is the same with regularization *)
Lemma two_line_0 : best true 1 two [0; 1] (ones 2) 0 [1] 0.
Proof.
  split; [reflexivity|]. split; [reflexivity|]. intros s o L _. destruct s as [|a [|]]; try discriminate.
  assert (E0 : objective two [0; 1] (ones 2) 0 [1] 0 = 0) by (unfold objective, wsse, affine, dot, sqnorm; cbn; ring).
  assert (Ea : objective two [0; 1] (ones 2) 0 [a] o = o * o + (a + o - 1) * (a + o - 1)) by (unfold objective, wsse, affine, dot, sqnorm; cbn; ring).
  rewrite E0, Ea. pose proof (Rle_0_sqr o) as P1. pose proof (Rle_0_sqr (a + o - 1)) as P2. unfold Rsqr in *. split; [lra|intros E]. assert (o = 0) by nra. subst o. assert (a = 1) by nra. subst. split; reflexivity.
Qed.
Lemma lwr_unregularized : exists f', train no_fa (lwr_train exp [1%nat] 0.5 1 (In1 [0; 1])) (In2 (Mat 1 two)) = (f', Ok tt) /\
  ~ exists s o, best true 1 two [0; 1] (ones 2) 1 s o /\
    forall X, X <> [] -> Forall (fun r => length r = 1%nat) X ->
      predict f' (lwr_predict exp) (In2 (Mat 1 X)) = Ok (map (affine s o) X).
Proof.
  pose proof (two_grid 1 ltac:(lia)) as G.
  destruct (lwr_succeeds 1 two [0; 1] [1%nat] 0.5 1 (In1 [0; 1]) G (or_introl eq_refl) (or_introl eq_refl) no_fa) as [[_ Sc] _].
  destruct (is_ok_train _ _ _ (Sc two_det)) as [f' E]. exists f'. split; [exact E|].
  intros (s & o & (Ls & _ & B) & P). destruct s as [|a [|]]; try discriminate.
  pose proof (lwr_exact 1 two [0; 1] [1%nat] 0.5 1 (In1 [0; 1]) no_fa f' [1] 0 G (or_introl eq_refl) (or_introl eq_refl) eq_refl) as Q.
  assert (Hy : forall i, (i < length two)%nat -> nth i [0; 1] 0 = affine [1] 0 (nth i two [])).
  { intros [|[|i]] Hi; cbn in Hi; [| |lia]; unfold affine, dot; cbn; lra. }
  specialize (Q Hy E two ltac:(discriminate) ltac:(repeat constructor)).
  rewrite (P two ltac:(discriminate) ltac:(repeat constructor)) in Q. unfold affine, dot in Q. cbn in Q. injection Q as Q0 Q1.
  assert (o = 0) by lra. assert (a = 1) by lra. subst.
  destruct (B [0.5] 0.25 eq_refl ltac:(discriminate)) as [B1 _]. unfold objective, wsse, affine, dot, sqnorm in B1. cbn in B1. lra.
Qed.
(** at least two different samples *)
Lemma two_at_least : at_least 2 two.
Proof.
  exists two. split; [|split; [apply incl_refl|reflexivity]]. unfold two. repeat constructor; cbn; [intros [E|[]]|tauto]. injection E. lra.
Qed.
Lemma two_not_3 : ~ at_least 3 two.
Proof.
  intros (l & N & I & L). pose proof (NoDup_incl_length N I) as Q. rewrite L in Q. cbn in Q. lia.
Qed.
