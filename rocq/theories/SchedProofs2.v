(** DMPs with schedules: schedules depend on the phase only; single steps. *)
From Coq Require Import String.
From Verif Require Import Base BaseLemmas DynModel DynSpec DynProofs ParamModel ParamSpec ParamProofs ParamProofs2 TrajModel DmpModel DmpSpec DmpProofs DmpProofs2 DmpProofs3 DmpProofs4 DmpProofs5 DmpProofs6 DmpProofs7 DmpProofs8 DmpProofs9 DmpProofs10 DmpProofs13 DmpProofs14 DmpProofs16 DmpProofs19 SchedModel SchedSpec SchedProofs.
Open Scope R_scope.

Lemma set_y0_phase m y m' : set_y0 m y = Ok m' -> m_phase m' = m_phase m.
Proof.
  unfold set_y0. destruct (Nat.eqb _ _); [|discriminate]. destruct (d_set_y_init _ _); [|discriminate]. cbn [bind].
  destruct (match m_goal m with Some g => _ | None => _ end); [|discriminate]. cbn [bind]. intros E. injection E as <-. reflexivity.
Qed.
Lemma set_params_phase m v m' : m_set_params m v = (m', Ok tt) -> m_phase m' = m_phase m.
Proof.
  unfold m_set_params. destruct (dmp_set _ _) as [p [u|e]]; [|discriminate]. destruct (mem _ _).
  - destruct (goal_attr _ _); [|discriminate]. intros E. injection E as <-. reflexivity.
  - intros E. injection E as <-. reflexivity.
Qed.

(** sizes of states *)
Lemma put_length ix v x y : put_ix ix v x = Ok y -> length y = length x.
Proof.
  unfold put_ix. destruct (Nat.leb_spec (fst ix + snd ix) (length x)); [|discriminate]. destruct (fit (snd ix) v) as [w|] eqn:F; [|discriminate].
  cbn [bind]. intros E. injection E as <-. assert (length w = snd ix).
  { unfold fit in F. destruct (Nat.eqb_spec (length v) (snd ix)); [congruence|]. destruct v as [|a [|]]; try discriminate. injection F as <-. apply repeat_length. }
  rewrite !app_length, firstn_length, skipn_length. lia.
Qed.
Ltac peel E := repeat match type of E with
  | bind (put_ix ?i ?v ?x) _ = Ok _ => let P := fresh "P" in let y := fresh "y" in destruct (put_ix i v x) as [y|] eqn:P; [apply put_length in P; cbn [bind] in E|discriminate]
  | bind ?a _ = Ok _ => let Q := fresh "Q" in destruct a eqn:Q; [cbn [bind] in E|discriminate]
  | (let '(_, _) := ?p in _) = Ok _ => destruct p
  end.
Lemma diffeq_length pf m x m' xd : m_diffeq pf m x = Ok (m', xd) -> length xd = length x.
Proof.
  unfold m_diffeq. cbv zeta. intros E. peel E. rewrite repeat_length in *. injection E as _ <-. congruence.
Qed.
Lemma start_length pf m m' x xd : m_start pf m None = Ok (m', x, xd) -> length x = dim_x m.
Proof.
  unfold m_start. cbv zeta. cbn [bind]. intros E. peel E. injection E as _ <- _.
  rewrite repeat_length in *.
  match goal with H : match m_damping m with None => _ | Some _ => _ end = Ok _ |- _ => rename H into HD end.
  destruct (m_damping m); peel HD; injection HD as <- <-; congruence.
Qed.
Lemma vop_length f a b c : vop f a b = Ok c -> length a = length b -> length c = length a.
Proof. unfold vop. intros E L. rewrite L, Nat.eqb_refl in E. injection E as <-. rewrite map2_length, L. lia. Qed.
Lemma rate_length pf m x xd : rate_of pf m x = Ok xd -> length xd = length x.
Proof. unfold rate_of. destruct (m_diffeq pf m x) as [[m' y]|] eqn:E; [|discriminate]. cbn. intros H. injection H as <-. exact (diffeq_length pf m x m' y E). Qed.
Lemma rk_length pf m dt x x' xd : step_rk (rate_of pf m) (dim_x m) dt x = Ok (x', xd) -> length x' = dim_x m.
Proof.
  unfold step_rk. destruct (Nat.eqb_spec (length x) (dim_x m)) as [L|]; [|discriminate]. intros E. peel E. injection E as <- _.
  repeat match goal with H : rate_of _ _ _ = Ok _ |- _ => apply rate_length in H end.
  repeat match goal with H : vop _ _ _ = Ok _ |- _ => apply vop_length in H; [|rewrite ?map_length; congruence] end. congruence.
Qed.

Section S.
Variables (pf : nat -> list (string * pval) -> R -> res R) (tf : nat -> list R -> list R -> res (list (string * pval))).
Variable sf : nat -> list (string * pval) -> R -> res R.

Lemma touched_phase m m' : touched m m' -> m_phase m' = m_phase m.
Proof. intros (a & p & g & -> & _). reflexivity. Qed.
Lemma clock_phase m c m' : same_clock c -> apply1 pf tf m c = Ok m' -> m_phase m' = m_phase m.
Proof.
  destruct c as [t|y|y| |n|v|t|q]; cbn [same_clock apply1]; try contradiction; intros _ E.
  - now apply (set_y0_phase m y).
  - unfold set_yattr in E. destruct (Nat.eqb _ _); [|discriminate]. destruct (goal_attr _ _); [|discriminate]. now injection E as <-.
  - now injection E as <-.
  - now injection E as <-.
  - destruct (m_set_params m v) as [m1 [u|e]] eqn:E1; [|discriminate]. cbn [bind] in E. injection E as <-. destruct u. eapply set_params_phase; eauto.
  - destruct q as [x| |ts s]; cbn [reply1] in E.
    + destruct (m_diffeq pf m x) as [[m1 xd]|] eqn:E1; [|discriminate]. cbn in E. injection E as <-. exact (touched_phase _ _ (diffeq_touch pf m m1 x xd E1)).
    + destruct (m_start pf m None) as [[[m1 x] xd]|] eqn:E1; [|discriminate]. cbn in E. injection E as <-. exact (touched_phase _ _ (start_touch pf m m1 x xd E1)).
    + destruct (ana pf m ts s); [|discriminate]. cbn in E. now injection E as <-.
Qed.
Lemma clocks_phase cs : forall m m', Forall same_clock cs -> apply_all pf tf m cs = Ok m' -> m_phase m' = m_phase m.
Proof.
  induction cs as [|c cs IH]; intros m m' H E; cbn [apply_all] in E; [now injection E as <-|].
  inversion H; subst. destruct (apply1 pf tf m c) as [m1|] eqn:E1; [|discriminate]. cbn [bind] in E.
  rewrite (IH _ _ H3 E). now apply (clock_phase m c).
Qed.

(** two objects with the same schedules and the same phases at two times *)
Lemma same_phase w m' lo hi ts ts' : wf pf (w_dmp w) -> wf pf m' -> sched_ready sf w -> bounded_by w lo hi -> ts <> [] -> ts' <> [] ->
  exists r s r' s', ana_sched pf sf w (Some ts) = Ok (r, In2 s) /\ ana_sched pf sf (upd_dmp w m') (Some ts') = Ok (r', In2 s') /\
    nrows s = length ts /\ nrows s' = length ts' /\ mcols s = length (w_fas w) /\ mcols s' = length (w_fas w) /\
    forall k k' i ph, (k < length ts)%nat -> (k' < length ts')%nat -> (i < length (w_fas w))%nat ->
      phase_at (w_dmp w) (nth k ts 0) ph -> phase_at m' (nth k' ts' 0) ph -> mget s k i = mget s' k' i.
Proof.
  intros W W' Sr B Hne Hne'. destruct (ana_sched_ok pf sf w lo hi ts W Sr B Hne) as (r & s & E & _ & N & C & _ & V).
  destruct (ana_sched_ok pf sf (upd_dmp w m') lo hi ts' W' Sr B Hne') as (r' & s' & E' & _ & N' & C' & _ & V').
  exists r, s, r', s'. do 2 (split; [assumption|]). do 4 (split; [assumption|]). intros k k' i ph Hk Hk' Hi Hp Hp'.
  destruct (V k i Hk Hi) as (p & P & _ & ->). destruct (V' k' i Hk' Hi) as (p' & P' & _ & ->).
  rewrite (phase_at_fun _ _ _ _ P Hp). cbn [upd_dmp w_dmp] in P'. rewrite (phase_at_fun _ _ _ _ P' Hp'). reflexivity.
Qed.
Lemma phase_only w lo hi cs m' ts ts' : predicts pf tf -> wf pf (w_dmp w) -> allowed pf tf (w_dmp w) cs -> Forall same_clock cs ->
  apply_all pf tf (w_dmp w) cs = Ok m' -> sched_ready sf w -> bounded_by w lo hi -> ts <> [] -> ts' <> [] ->
  exists r s r' s', ana_sched pf sf w (Some ts) = Ok (r, In2 s) /\ ana_sched pf sf (upd_dmp w m') (Some ts') = Ok (r', In2 s') /\
    nrows s = length ts /\ nrows s' = length ts' /\ mcols s = length (w_fas w) /\ mcols s' = length (w_fas w) /\
    forall k k' i, (k < length ts)%nat -> (k' < length ts')%nat -> (i < length (w_fas w))%nat ->
      nth k ts 0 = nth k' ts' 0 -> mget s k i = mget s' k' i.
Proof.
  intros Pr W Al Cl E Sr B Hne Hne'.
  assert (W' : wf pf m').
  { apply sound_wf; [exact (proj1 (history_sound pf tf Pr cs (w_dmp w) m' (wf_sound pf _ W) Al E))|].
    apply (history_sound pf tf Pr cs (w_dmp w) m' (wf_sound pf _ W) Al E). exact (wf_ready pf _ W). }
  destruct (same_phase w m' lo hi ts ts' W W' Sr B Hne Hne') as (r & s & r' & s' & E1 & E2 & N1 & N2 & C1 & C2 & V).
  exists r, s, r', s'. do 6 (split; [assumption|]). intros k k' i Hk Hk' Hi Ht.
  destruct (phase_fun pf (w_dmp w) W) as (P & HP & _). apply (V k k' i (P (nth k ts 0))); trivial. rewrite <- Ht.
  unfold phase_at. rewrite (clocks_phase cs _ _ Cl E). apply HP.
Qed.
Lemma time_scaled w lo hi c m' ts : wf pf (w_dmp w) -> time_invariant (m_phase (w_dmp w)) -> 0 < c -> set_tau (w_dmp w) (c * m_tau (w_dmp w)) = Ok m' ->
  sched_ready sf w -> bounded_by w lo hi -> ts <> [] ->
  exists r s r' s', ana_sched pf sf w (Some ts) = Ok (r, In2 s) /\ ana_sched pf sf (upd_dmp w m') (Some (map (Rmult c) ts)) = Ok (r', In2 s') /\
    nrows s = length ts /\ nrows s' = length ts /\ mcols s = length (w_fas w) /\ mcols s' = length (w_fas w) /\
    forall k i, (k < length ts)%nat -> (i < length (w_fas w))%nat -> mget s k i = mget s' k i.
Proof.
  intros W Ti Hc E Sr B Hne.
  destruct (set_tau_wf c Hc pf (w_dmp w) W) as (m1 & E1 & W' & _). rewrite E in E1. injection E1 as <-.
  destruct (same_phase w m' lo hi ts (map (Rmult c) ts) W W' Sr B Hne) as (r & s & r' & s' & E1 & E2 & N1 & N2 & C1 & C2 & V).
  { intros H. apply map_eq_nil in H. contradiction. }
  rewrite map_length in N2, V. exists r, s, r', s'. do 6 (split; [assumption|]). intros k i Hk Hi.
  destruct (phase_fun pf (w_dmp w) W) as (P & HP & _). apply (V k k i (P (nth k ts 0))); trivial.
  destruct (HP (nth k ts 0)) as [xd Ex]. rewrite nth_scaled. 
  assert (Eph : m_phase m' = sub_set_tau (m_phase (w_dmp w)) (sub_tau (m_phase (w_dmp w)) * c)).
  { unfold set_tau in E. destruct (Req_EM_T _ _) as [|N]; [discriminate|]. injection E as <-. cbn. f_equal. f_equal. field. exact N. }
  pose proof W as (_ & _ & _ & _ & _ & _ & _ & _ & _ & _ & _ & _ & _ & _ & [Hp _] & _).
  apply (sub_scale c Hc) in Ex; trivial. cbn [map] in Ex. exists (xd / c). rewrite Eph. exact Ex.
Qed.

(** single steps *)
Lemma enforce_step n lo hi l : usable n lo -> usable n hi -> length l = n -> (lo = ANone /\ hi = ANone) \/ n = 1%nat ->
  exists s, enforce_bounds (make_bound n lo) (make_bound n hi) n (In1 l) = Ok s /\
    step_values s = map (fun i => limited lo hi i (nth i l 0)) (seq 0 n).
Proof.
  intros Ul Uh L [[-> ->]|N].
  - exists (In1 l). split; [reflexivity|]. cbn [step_values]. rewrite <- L. transitivity (map (fun i => nth i l 0) (seq 0 (length l))); [apply list_eq_map_nth|reflexivity].
  - rewrite N in *. clear N. destruct l as [|v [|]]; try discriminate. clear L.
    destruct (enforce_limited 1 lo hi (Mat 1 [[v]]) Ul Uh) as (s & E & C & Ws & Nr & V); [repeat constructor|reflexivity|].
    specialize (V 0%nat 0%nat ltac:(cbn; lia) ltac:(lia)). cbn in V.
    destruct s as [c rows]. cbn in C, Nr. unfold nrows in Nr. cbn in Nr. destruct rows as [|r [|]]; try discriminate. subst c.
    inversion Ws as [|x l Hx Hl]; subst. cbn in Hx. destruct r as [|u [|]]; try discriminate.
    destruct lo, hi; cbn [make_bound] in *; try (eexists; split; [exact E|]; cbn; unfold mget in V; cbn in V; now rewrite V).
    exists (In1 [v]). now split.
Qed.
Lemma start_sched_ok w lo hi m' x xd : wf pf (w_dmp w) -> sched_ready sf w -> bounded_by w lo hi ->
  (lo = ANone /\ hi = ANone) \/ length (w_fas w) = 1%nat -> m_start pf (w_dmp w) None = Ok (m', x, xd) ->
  exists s, start_sched pf sf w None = Ok (upd_dmp w m', x, xd, s) /\
    step_values s = map (fun i => limited lo hi i (sched_val sf w (nth (3 * m_dim (w_dmp w)) x 0) i)) (seq 0 (length (w_fas w))).
Proof.
  intros W Sr (Ul & Uh & El & Eh) N E. pose proof (start_length pf _ _ _ _ E) as L. unfold start_sched. rewrite E. cbn [bind].
  destruct (start_touch pf _ _ _ _ E) as (a & p & g & Em & _ & Hg).
  assert (Dm : m_dim m' = m_dim (w_dmp w)) by now rewrite Em.
  assert (Dg : d_goal m' = m_dim m').
  { rewrite Dm, <- (d_goal_wf pf _ W). unfold d_goal. rewrite Dm. replace (m_goal m') with g by now rewrite Em.
    destruct (m_goal (w_dmp w)) as [g0|]; [|now rewrite Hg]. destruct Hg as [->|(g' & -> & H)]; [reflexivity|]. exact (sub_dim_attr _ _ _ H). }
  assert (Dx : dim_x m' = dim_x (w_dmp w)) by (unfold dim_x; now rewrite Dm).
  rewrite phase_ok by (trivial; now rewrite Dx). cbn [bind]. rewrite predict_sched_ok by trivial. cbn [bind]. rewrite Dm.
  destruct (enforce_step _ lo hi (map (sched_val sf w (nth (3 * m_dim (w_dmp w)) x 0)) (seq 0 (length (w_fas w)))) Ul Uh) as (s & Es & V); trivial.
  { now rewrite map_length, seq_length. }
  exists s. rewrite El, Eh, Es. split; [reflexivity|]. rewrite V. apply map_ext_in. intros i Hi. apply in_seq in Hi. now rewrite nth_map_seq by lia.
Qed.
Lemma step_sched_ok w lo hi dt x x' xd : wf pf (w_dmp w) -> sched_ready sf w -> bounded_by w lo hi ->
  (lo = ANone /\ hi = ANone) \/ length (w_fas w) = 1%nat ->
  step_rk (rate_of pf (w_dmp w)) (dim_x (w_dmp w)) dt x = Ok (x', xd) ->
  exists s, step_sched pf sf w dt x = Ok (x', xd, s) /\
    step_values s = map (fun i => limited lo hi i (sched_val sf w (nth (3 * m_dim (w_dmp w)) x' 0) i)) (seq 0 (length (w_fas w))).
Proof.
  intros W Sr (Ul & Uh & El & Eh) N E. pose proof (rk_length pf _ _ _ _ _ E) as L. unfold step_sched. rewrite E. cbn [bind].
  rewrite phase_ok by (trivial; exact (d_goal_wf pf _ W)). cbn [bind]. rewrite predict_sched_ok by trivial. cbn [bind].
  destruct (enforce_step _ lo hi (map (sched_val sf w (nth (3 * m_dim (w_dmp w)) x' 0)) (seq 0 (length (w_fas w)))) Ul Uh) as (s & Es & V); trivial.
  { now rewrite map_length, seq_length. }
  exists s. rewrite El, Eh, Es. split; [reflexivity|]. rewrite V. apply map_ext_in. intros i Hi. apply in_seq in Hi. now rewrite nth_map_seq by lia.
Qed.
End S.
