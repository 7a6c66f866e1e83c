(** DMPs with schedules: values of the schedules. *)
From Coq Require Import String.
From Verif Require Import Base BaseLemmas DynModel DynSpec DynProofs ParamModel ParamSpec ParamProofs ParamProofs2 TrajModel DmpModel DmpSpec DmpProofs DmpProofs2 DmpProofs3 DmpProofs4 DmpProofs5 DmpProofs6 DmpProofs7 DmpProofs9 DmpProofs10 DmpProofs13 SchedModel SchedSpec.
Open Scope R_scope.

Lemma d_goal_wf pf m : wf pf m -> d_goal m = m_dim m.
Proof. intros W. pose proof W as (_ & _ & _ & _ & _ & _ & _ & _ & _ & _ & _ & _ & Hg & _). unfold d_goal. destruct (m_goal m); [apply Hg|reflexivity]. Qed.
Lemma phase_ok m x : d_goal m = m_dim m -> length x = dim_x m -> phase_of m x = Ok (nth (3 * m_dim m) x 0).
Proof.
  intros Hd L. unfold phase_of, get_ix, ix_phase. rewrite Hd. cbn [fst snd].
  set (o := (m_dim m + m_dim m + m_dim m)%nat). unfold dim_x in L. assert (Ho : o = (3 * m_dim m)%nat) by (unfold o; lia).
  destruct (Nat.leb_spec (o + 1) (length x)); [|lia]. cbn [bind]. rewrite <- Ho.
  rewrite <- (firstn_skipn o x) at 2. rewrite app_nth2 by (rewrite firstn_length; lia). rewrite firstn_length, Nat.min_l, Nat.sub_diag by lia.
  destruct (skipn o x) as [|v l] eqn:E; [|reflexivity]. pose proof (skipn_length o x) as Q. rewrite E in Q. cbn in Q. lia.
Qed.

Section Values.
Variable sf : nat -> list (string * pval) -> R -> res R.
Lemma mapM_seq_ok {B} (f : nat -> res B) (g : nat -> B) n : (forall i, (i < n)%nat -> f i = Ok (g i)) -> mapM f (seq 0 n) = Ok (map g (seq 0 n)).
Proof.
  intros H. assert (G : forall k s, (forall i, (s <= i < s + k)%nat -> f i = Ok (g i)) -> mapM f (seq s k) = Ok (map g (seq s k))).
  { induction k as [|k IH]; intros s Hs; [reflexivity|]. cbn [seq mapM map]. rewrite Hs by lia. cbn [bind]. rewrite IH by (intros; apply Hs; lia). reflexivity. }
  apply G. intros i Hi. apply H. lia.
Qed.
Lemma predict_sched_ok w ph : sched_ready sf w -> predict_sched sf w ph = Ok (map (sched_val sf w ph) (seq 0 (length (w_fas w)))).
Proof.
  intros H. apply mapM_seq_ok. intros i Hi. unfold nth_res, sched_val. destruct (nth_error (w_fas w) i) as [f|] eqn:E.
  - cbn [bind]. destruct (H i f E) as [-> Hv]. destruct (Hv ph) as [v ->]. reflexivity.
  - apply nth_error_None in E. lia.
Qed.
End Values.

Lemma limited_clip lo hi i v : clip (arg_at lo i) (arg_at hi i) v = limited lo hi i v.
Proof. reflexivity. Qed.
Lemma enforce_limited n lo hi m : usable n lo -> usable n hi -> mat_wf m -> mcols m = n ->
  exists m', enforce_bounds (make_bound n lo) (make_bound n hi) n (In2 m) = Ok (In2 m') /\
    mcols m' = n /\ mat_wf m' /\ nrows m' = nrows m /\
    forall k j, (k < nrows m)%nat -> (j < n)%nat -> mget m' k j = limited lo hi j (mget m k j).
Proof.
  intros Ul Uh W C. assert (D : (lo = ANone /\ hi = ANone) \/ ~ (lo = ANone /\ hi = ANone)) by (destruct lo, hi; (now left) || (right; intros [? ?]; discriminate)).
  destruct D as [[-> ->]|Nb]. { exists m. auto. }
  destruct (clip_columns_ok (make_bound n lo) (make_bound n hi) n 0 m) as [m' E]; [lia| |].
  { intros j Hj. destruct (usable_at n lo j Ul) as [B1 B2]; [lia|]. destruct (usable_at n hi j Uh) as [B3 B4]; [lia|].
    do 2 eexists. split; [exact B1|]. split; [exact B3|]. intros [X Y].
    destruct lo; [|now apply B2| now apply B2 | now apply B2]. destruct hi; [tauto| now apply B4 | now apply B4 | now apply B4]. }
  exists m'. destruct (clip_columns_cells _ _ _ _ _ _ W E) as (C' & W' & L & _ & Ce).
  split. { unfold enforce_bounds. destruct lo, hi; cbn [make_bound] in *; try (rewrite E; reflexivity). tauto. }
  split; [congruence|]. split; [exact W'|]. split; [exact L|]. intros k j Hk Hj.
  destruct (Ce k j Hk) as [C1 _]. destruct C1 as (l & h & B1 & B2 & Eq); [lia|].
  destruct (usable_at n lo j Ul Hj) as [B3 _]. destruct (usable_at n hi j Uh Hj) as [B4 _].
  rewrite B1 in B3. injection B3 as ->. rewrite B2 in B4. injection B4 as ->. exact Eq.
Qed.

Lemma phase_fun pf m : wf pf m -> exists P, (forall t, phase_at m t (P t)) /\
  forall ts sup r k, ana pf m ts sup = Ok r -> (k < length ts)%nat -> pv (m_dim m) (a_xs r) k = P (nth k ts 0).
Proof.
  intros W. pose proof W as (_ & _ & _ & _ & _ & _ & _ & _ & _ & _ & _ & _ & _ & _ & Hp & Hp1 & _).
  destruct (sub_solution _ Hp) as (P & Pd & p1 & p2 & p3 & p4 & p5). rewrite Hp1 in p3, p4.
  exists (fun t => nth 0 (P t) 0). split.
  - intros t. exists (nth 0 (Pd t) 0). rewrite p1. cbn [map]. specialize (p3 t). specialize (p4 t).
    destruct (P t) as [|a [|]]; try discriminate. destruct (Pd t) as [|b [|]]; try discriminate. reflexivity.
  - intros ts sup r k E Hk. assert (ts <> []) as Hne by (now destruct ts; cbn in Hk; [lia|]).
    destruct (ana_total pf m ts sup W Hne) as (r' & E' & S). rewrite E in E'. injection E' as <-.
    destruct S as (_ & _ & _ & _ & _ & (ps & pds & Ep & Hps) & _). rewrite p1 in Ep. injection Ep as <- <-.
    destruct (Hps k Hk) as [-> _]. now rewrite (at_map _ _ _ _ 0) by trivial.
Qed.
Lemma phase_at_fun m t p q : phase_at m t p -> phase_at m t q -> p = q.
Proof. intros [a E] [b F]. rewrite E in F. now injection F. Qed.

Section Ana.
Variables (pf : nat -> list (string * pval) -> R -> res R) (sf : nat -> list (string * pval) -> R -> res R).
Lemma ana_sched_ok w lo hi ts : wf pf (w_dmp w) -> sched_ready sf w -> bounded_by w lo hi -> ts <> [] ->
  exists r s, ana_sched pf sf w (Some ts) = Ok (r, In2 s) /\ ana pf (w_dmp w) ts false = Ok r /\
    nrows s = length ts /\ mcols s = length (w_fas w) /\ mat_wf s /\
    forall k i, (k < length ts)%nat -> (i < length (w_fas w))%nat -> exists ph,
      phase_at (w_dmp w) (nth k ts 0) ph /\ pv (m_dim (w_dmp w)) (a_xs r) k = ph /\ mget s k i = limited lo hi i (sched_val sf w ph i).
Proof.
  intros W Sr (Ul & Uh & El & Eh) Hne. set (n := length (w_fas w)) in *. set (m := w_dmp w) in *.
  destruct (ana_total pf m ts false W Hne) as (r & Er & S). exists r.
  destruct (phase_fun pf m W) as (P & HP & HP2).
  destruct S as (L1 & _ & _ & _ & Lr & _).
  set (rows := map (fun k => map (sched_val sf w (nth (3 * m_dim m) (nth k (a_xs r) []) 0)) (seq 0 n)) (seq 0 (length ts))).
  assert (Erows : mapM (fun x => let* ph := phase_of m x in predict_sched sf w ph) (a_xs r) = Ok rows).
  { transitivity (mapM (fun x => let* ph := phase_of m x in predict_sched sf w ph) (map (fun k => nth k (a_xs r) []) (seq 0 (length ts)))).
    { f_equal. rewrite <- L1. apply list_eq_map_nth. }
    rewrite mapM_map. unfold rows. apply mapM_seq_ok. intros k Hk. rewrite phase_ok; [|exact (d_goal_wf pf m W)|now apply Lr].
    cbn [bind]. now apply predict_sched_ok. }
  destruct (enforce_limited n lo hi (Mat n rows) Ul Uh) as (s & Es & C & Ws & N & V); [|reflexivity|].
  { unfold mat_wf, rows. cbn [mrows mcols]. rewrite Forall_map. apply Forall_forall. intros k _. now rewrite map_length, seq_length. }
  assert (N' : nrows s = length ts) by (rewrite N; unfold nrows, rows; cbn; now rewrite map_length, seq_length).
  exists s. split. { unfold ana_sched. fold m n. cbn [bind]. rewrite Er. cbn [bind]. rewrite Erows. cbn [bind]. rewrite El, Eh, Es. reflexivity. }
  split; [exact Er|]. split; [exact N'|]. split; [exact C|]. split; [exact Ws|].
  intros k i Hk Hi. exists (P (nth k ts 0)). split; [apply HP|]. pose proof (HP2 _ _ _ _ Er Hk) as Q. split; [exact Q|].
  rewrite V by (try rewrite <- N; lia). f_equal. unfold mget. cbn [mrows]. unfold rows. rewrite (nth_indep _ _ (map (sched_val sf w (nth (3 * m_dim m) (nth 0 (a_xs r) []) 0)) (seq 0 n))) by (now rewrite map_length, seq_length).
  rewrite (map_nth (fun k => map (sched_val sf w (nth (3 * m_dim m) (nth k (a_xs r) []) 0)) (seq 0 n)) (seq 0 (length ts)) 0%nat k).
  rewrite seq_nth by trivial. cbn [Nat.add]. rewrite nth_map_seq by trivial. rewrite <- Q. reflexivity.
Qed.
End Ana.

(** the constructor *)
Lemma new_wdmp_ok ty tau y0 attr fas scheds lo hi kw m : new_dmp ty tau y0 attr fas kw = Ok m ->
  usable (length scheds) lo -> usable (length scheds) hi ->
  exists w, new_wdmp ty tau y0 attr fas scheds lo hi kw = Ok w /\ w_dmp w = m /\ w_fas w = scheds /\ bounded_by w lo hi.
Proof.
  intros E L H. unfold new_wdmp. rewrite E. cbn [bind]. eexists. split; [reflexivity|]. unfold bounded_by. cbn [w_dmp w_fas w_lo w_hi]. now repeat (split; [first [reflexivity|assumption]|]).
Qed.
