(** A generator and a cost function for the properties of whole optimizations *)
From Coq Require Import String.
From Verif Require Import Base BaseLemmas SessionModel UpdatersModel UpdatersSpec UpdatersProofs UpdatersProofs3 UpdatersProofs4 UpdatersProofs5 UpdatersExamples LoopModel LoopSpec LoopExamples
  EquivSpec EquivProofs.
Open Scope R_scope.

(** sample j has the mean plus j standard deviations, in every dimension *)
Definition z_rng (s : nat) (mean : list R) (C : mat) (n : Z) : nat * res mat :=
  (S s, Ok (Mat (length mean) (map (fun j => map2 (fun i x => x + INR (s + j) * sqrt (mget C i i)) (seq 0 (length mean)) mean)
                                   (seq 0 (Z.to_nat n))))).
Lemma z_sized : sized z_rng.
Proof.
  intros s mean C n s' m H. injection H as _ <-. split; [|reflexivity]. unfold mat_wf. cbn [mrows mcols].
  apply Forall_map, Forall_forall. intros j _. rewrite map2_length, seq_length. apply Nat.min_id.
Qed.
Lemma sqrt_scaled c y : 0 < c -> sqrt (c * c * y) = c * sqrt y.
Proof.
  intros Hc. destruct (Rle_dec 0 y) as [H|H].
  - rewrite sqrt_mult by nra. now rewrite sqrt_square by lra.
  - rewrite !sqrt_neg_0 by nra. ring.
Qed.
Lemma z_commutes c v : 0 < c -> commutes z_rng c v.
Proof.
  intros Hc s mean C n Hl. unfold z_rng. cbn [fst snd res_map]. f_equal. f_equal. unfold affine_mat. cbn [mcols mrows].
  rewrite affine_row_length by exact Hl. rewrite <- Hl. f_equal. rewrite map_map. apply map_ext. intros j.
  apply (nth_ext _ _ 0 0).
  { rewrite map2_length, seq_length, !affine_row_length by (rewrite ?map2_length, ?seq_length; lia). lia. }
  rewrite map2_length, seq_length, affine_row_length by exact Hl. intros i Hi. rewrite Hl, Nat.min_id in Hi.
  rewrite affine_row_nth by (rewrite ?map2_length, ?seq_length; lia).
  rewrite !(nth_map2 _ _ _ i 0%nat 0 0) by (rewrite ?seq_length, ?affine_row_length; lia).
  rewrite affine_row_nth, seq_nth by lia. rewrite Nat.add_0_l, mget_mscal, sqrt_scaled by exact Hc. ring.
Qed.

(** every call of the cost function is worse than the one before *)
Definition z_eval (s : nat) (x : list R) : nat * res cost := (S s, Ok (CScalar (INR s))).
Definition z_orc : oracles unit nat :=
  bbo_oracles z_rng z_eval my_argsort (UMean "CEM" (EInt 1)) (fun s _ => (s, Ok tt)) (fun s _ x => z_eval s x).
Definition z_run := run_optimization unit unit nat x_cat z_orc x_world RDir (OObj 1) (OObj 2) x_dist 1 2 x_st.

Lemma bind_ok {CV P S X Y} (m : M CV P S X) (k : X -> M CV P S Y) s s1 a :
  m s = (s1, Ok a) -> bindM CV P S m k s = k a s1.
Proof. intros H. unfold bindM. now rewrite H. Qed.
Lemma z_run_ok : is_ok (snd z_run) /\ no_ties (st_trace (fst z_run)) /\ length (st_trace (fst z_run)) = 5%nat.
Proof.
  set (samples := Mat 2 (map (fun j => map2 (fun i x => x + INR (1 + j) * sqrt (mget (d_covar x_dist) i i)) (seq 0 2) [1; 2]) (seq 0 2))).
  set (costs := [CScalar (INR 2); CScalar (INR 3)]).
  destruct (update_mean_decay_ok my_argsort my_argsort_ok (UMean "CEM" (EInt 1)) x_dist samples costs) as (d' & w & E).
  - discriminate.
  - discriminate.
  - intros [H|[H|[]]]; discriminate.
  - split; [intros _; exists 1%Z; split; [reflexivity|lia]|discriminate].
  - reflexivity.
  - assert (R : exists db', z_run = (St 4%nat [EEval [1; 2] (CScalar (INR 0)); EGen x_dist 2 samples;
        EEval (nth 0 (mrows samples) []) (CScalar (INR 2)); EEval (nth 1 (mrows samples) []) (CScalar (INR 3)); EUpd x_dist samples costs d' w] db', Ok d')).
    { unfold z_run, run_optimization. generalize (new_session (x_cat (CV := unit) (P := unit)) OInt x_world 2 RDir
        [("cost_function"%string, OObj 1); ("updater"%string, OObj 2)]). intros db.
      cbn [opt_loop]. unfold opt_update.
      eexists. erewrite bind_ok.
      2:{ erewrite bind_ok by reflexivity. erewrite bind_ok by reflexivity. erewrite bind_ok by reflexivity.
          erewrite bind_ok.
          2:{ unfold m_upd, call_out. cbn [z_orc bbo_oracles o_upd st_out].
              match goal with |- context [update_distribution _ _ _ ?m ?c] => change m with samples; change c with costs end.
              rewrite E. reflexivity. }
          erewrite bind_ok by reflexivity. erewrite bind_ok by reflexivity. reflexivity. }
      reflexivity. }
    destruct R as [db' ->]. cbn [fst snd st_trace]. split; [eexists; reflexivity|]. split; [|reflexivity].
    intros d m cs d1 w1 rs Hin HT. cbn in Hin. repeat (destruct Hin as [Hin|Hin]; [try discriminate Hin|]); [|contradiction].
    injection Hin as _ _ <- _ _. assert (rs = [INR 2; INR 3]) as ->.
    { apply (totals_det costs rs _ HT). exact (scalar_totals [INR 2; INR 3]). }
    constructor; [|constructor; [intros []|constructor]]. intros [H|[]]. cbn in H. lra.
Qed.
