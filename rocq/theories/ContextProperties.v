(** Properties of contextual DMPs (C73, C87).

    [predict_fn], [train_fn]: function approximators of the DMP; [ppf_predict], [ppf_train]: policy
    parameter functions. The theorems hold for all of them. *)
From Coq Require Import String.
From Verif Require Import Base BaseLemmas DynModel ParamModel ParamSpec TrajModel DmpModel DmpSpec FaModel ContextModel ContextSpec ContextProofs ContextProofs2 ContextProofs3 ContextProofs4 DmpExamples ContextExamples.
Open Scope R_scope.

(** ** C73. Full statement: after set_task_params(q), analytical_solution(q) or integrate_start(q) the
    parameters of the DMP are the predictions of the policy parameter functions for q, whatever was
    called before. False for integrate_start of a DMP with several dimensions and "goal" selected. *)
Theorem C73_parameters : forall ppf_predict c fs q v, usable_ctx c fs -> predicted ppf_predict fs q v ->
  exists c', set_task ppf_predict c q = (c', Ok tt) /\ m_get_params (c_dmp c') = Ok v /\
    same_but_params (c_dmp c) (c_dmp c') /\ usable_ctx c' fs.
Proof. intros pp c fs q v U. exact (set_task_ok pp c fs U q v). Qed.
Print Assumptions C73_parameters.
Theorem C73_failure : forall ppf_predict c fs q, usable_ctx c fs -> ~ (exists v, predicted ppf_predict fs q v) ->
  exists e, set_task ppf_predict c q = (c, Err e).
Proof. intros pp c fs q. exact (set_task_fails pp c fs q). Qed.
Print Assumptions C73_failure.
Theorem C73_start_parameters : forall predict_fn ppf_predict c fs q y c' x xd, usable_ctx c fs ->
  c_start predict_fn ppf_predict c q y = Ok (c', x, xd) ->
  exists v, predicted ppf_predict fs q v /\ m_get_params (c_dmp c') = Ok v.
Proof. exact start_params. Qed.
Print Assumptions C73_start_parameters.
(** after any history of calls, a rollout, the start of an integration and the rates of change are
    those of the contextual DMP without the history *)
Theorem C73_history : forall predict_fn ppf_predict c fs ks c', usable_ctx c fs ->
  ccalls predict_fn ppf_predict c ks = Ok c' ->
  usable_ctx c' fs /\
  (forall q ts s, snd (c_ana predict_fn ppf_predict c' q ts s) = snd (c_ana predict_fn ppf_predict c q ts s)) /\
  (forall q, start_values predict_fn ppf_predict c' q = start_values predict_fn ppf_predict c q) /\
  (forall q x, rates_for predict_fn ppf_predict c' q x = rates_for predict_fn ppf_predict c q x).
Proof.
  intros pf pp c fs ks c' U H. split; [exact (calls_usable pf pp c fs U ks c' H)|].
  split; [intros; exact (calls_ana pf pp c fs U ks c' q ts s H)|].
  split; intros; [exact (calls_start pf pp c fs U ks c' q H)|exact (calls_rates pf pp c fs U ks c' q x H)].
Qed.
Print Assumptions C73_history.
(** integrate_start(q) is set_task_params(q) followed by integrate_start of the DMP *)
Theorem C73_start_partial : forall predict_fn ppf_predict c fs q y, usable_ctx c fs ->
  ~ In "goal"%string (m_sel (c_dmp c)) \/ (m_dim (c_dmp c) <= 1)%nat ->
  c_start predict_fn ppf_predict c q y =
  let '(c', r) := set_task ppf_predict c q in
  let* _ := r in let* s := m_start predict_fn (c_dmp c') y in
  let '(m', x, xd) := s in Ok (Ctx m' (c_ppf c) (c_tau c), x, xd).
Proof. exact start_agrees. Qed.
Print Assumptions C73_start_partial.
Theorem C73_start_refuted : forall predict_fn ppf_predict c fs q v y, usable_ctx c fs -> predicted ppf_predict fs q v ->
  In "goal"%string (m_sel (c_dmp c)) -> (2 <= m_dim (c_dmp c))%nat ->
  match m_goal (c_dmp c) with None | Some (SubE _) => True | _ => m_req (c_dmp c) = true \/ m_scaling (c_dmp c) = GMinusY0 end ->
  c_start predict_fn ppf_predict c q y = Err ValueError /\ exists c', set_task ppf_predict c q = (c', Ok tt).
Proof.
  intros pf pp c fs q v y U P Hg Hd Hk. split; [exact (start_column pf pp c fs q v y U P Hg Hd Hk)|].
  destruct (set_task_ok pp c fs U q v P) as (c' & E & _). now exists c'.
Qed.
Print Assumptions C73_start_refuted.
(** task parameters of several dimensions as a vector are taken for several tasks, and rejected *)
Theorem C73_vector_refuted : forall predict_fn ppf_predict c fs d q, usable_ctx c fs -> fs <> [] -> (2 <= d)%nat ->
  Forall (fun f => f_dim f = Some d) fs ->
  set_task ppf_predict c (In1 q) = (c, Err ValueError) /\
  forall y, c_start predict_fn ppf_predict c (In1 q) y = Err ValueError.
Proof. exact vector_rejected. Qed.
Print Assumptions C73_vector_refuted.
(** hypotheses: a contextual DMP trained with two demonstrations, and the history of a rollout for
    each of them *)
Example C73_case : exists c' fs v c2, usable_ctx c' fs /\ length fs = 2%nat /\ predicted ex_ppf_predict fs (task [0; 5]) v /\
  ccalls ex_pf ex_ppf_predict c' [KAna (task [1; 5]) (Some [0; 1]) false; KTask (task [0; 5])] = Ok c2 /\
  ~ In "goal"%string (m_sel (c_dmp c')) /\ Forall (fun f => f_dim f = Some 2%nat) fs.
Proof.
  destruct ex_usable as (c' & fs & E & U & L).
  destruct (demo_predictions ex_pf ex_tf ex_ppf_predict ex_ppf_train _ _ _ _ _ fs 0 [0; 5] ex_demo E (proj1 U) eq_refl ex_interpolates) as (mk & vk & Ek & P).
  eexists c', fs, vk, _. split; [exact U|]. split; [exact L|]. split; [exact P|]. split; [reflexivity|].
  destruct (c_train_split _ _ _ _ _ _ _ _ E) as (copies & mL & vL & m' & gs & ppf & FC & NC & EL & IL & E3 & _ & _ & _ & Lp & Ht & ->).
  cbn [c_ppf c_dmp] in *. split.
  - destruct (setup3_frame _ _ _ _ _ E3) as (_ & _ & _ & _ & _ & _ & _ & _ & _ & S3 & _). rewrite S3.
    destruct (Forall2_in_r _ _ _ _ FC IL) as ([qL tL] & InL & CL). pose proof (copy_frame _ _ _ _ _ _ CL) as [TL GL].
    destruct (train_frame _ _ _ _ _ TL) as (_ & _ & _ & _ & _ & _ & A & _). rewrite A. intros [].
  - destruct U as [U _]. assert (Ep : fs = ppf) by (cbn in U; congruence). rewrite Ep. apply Forall_forall. intros f Hf. apply In_nth_error in Hf. destruct Hf as [i Hi].
    assert (Hl : (i < length vL)%nat) by (rewrite <- Lp; apply nth_error_Some; congruence).
    destruct (Ht i Hl) as (f0 & f' & _ & Ef' & Tr). assert (f' = f) by congruence. subst f'.
    unfold train, as_columns in Tr. cbn [mrows map ex_data fst] in Tr. destruct (ex_ppf_train i _ _); [|discriminate]. injection Tr as <-. reflexivity.
Qed.
Example C73_goal_case : usable_ctx ex_goal_ctx ex_goal_ppf /\ predicted ex_goal_predict ex_goal_ppf (task [6]) [6; 7] /\
  In "goal"%string (m_sel (c_dmp ex_goal_ctx)) /\ (2 <= m_dim (c_dmp ex_goal_ctx))%nat /\ m_goal (c_dmp ex_goal_ctx) = None.
Proof. split; [exact ex_goal_usable|]. split; [exact ex_goal_predicted|]. split; [now left|]. split; [cbn; lia|reflexivity]. Qed.

(** ** C87. Full statement: after training, duration, start and attractor of the DMP are the means over
    the demonstrations; for the task parameters of a demonstration, a contextual DMP whose policy
    parameter functions interpolate has the parameters of a DMP trained on this demonstration, and
    makes the same rollouts. False for the start, which is that passed to the constructor. Rollouts:
    for demonstrations with the same duration, start and end. *)
Theorem C87_means_partial : forall predict_fn train_fn ppf_train c data ns a c',
  c_train predict_fn train_fn ppf_train c data ns a = Ok c' ->
  m_tau (c_dmp c') = mean_over data (fun t => last (tj_ts t) 0) /\
  length (m_attr (c_dmp c')) = m_dim (c_dmp c) /\
  (forall j, (j < m_dim (c_dmp c))%nat ->
     nth j (m_attr (c_dmp c')) 0 = mean_over data (fun t => nth j (last (mrows (tj_ys t)) []) 0)) /\
  m_y0 (c_dmp c') = Some (get_y0 (c_dmp c)).
Proof. intros pf tf pt c data ns a c' H. destruct (trained_means pf tf pt c data ns a c' H) as (_ & A & B & C & D & _). auto. Qed.
Print Assumptions C87_means_partial.
(** hence the start differs from the mean: here all demonstrations start at 0 *)
Theorem C87_start_refuted : exists c c', new_ctx Ijspeert 2 [5] [7] (Some [ex_fa]) no_kw = Ok c /\
  c_train ex_pf ex_tf ex_ppf_train c ex_data ex_names ex_ppf = Ok c' /\
  mean_over ex_data (fun t => nth 0 (nth 0 (mrows (tj_ys t)) []) 0) = 0 /\ m_y0 (c_dmp c') = Some [5].
Proof.
  exists (ex_ctx_at 5). destruct (ex_trains 5) as [c' E]. exists c'. split; [reflexivity|]. split; [exact E|]. split; [unfold mean_over; cbn; lra|].
  destruct (trained_means _ _ _ _ _ _ _ _ E) as (_ & _ & _ & _ & D & _). exact D.
Qed.
Print Assumptions C87_start_refuted.
(** the property tau of the contextual DMP itself is not that of its DMP: training leaves it, and
    setting it changes neither rollouts nor rates of change *)
Theorem C87_tau_refuted : forall predict_fn train_fn ppf_predict ppf_train c data ns a c',
  c_train predict_fn train_fn ppf_train c data ns a = Ok c' -> c_tau c' = c_tau c /\
  forall t, c_tau (c_set_tau c' t) = t /\
    (forall q ts s, snd (c_ana predict_fn ppf_predict (c_set_tau c' t) q ts s) = snd (c_ana predict_fn ppf_predict c' q ts s)) /\
    (forall q x, rates_for predict_fn ppf_predict (c_set_tau c' t) q x = rates_for predict_fn ppf_predict c' q x).
Proof.
  intros pf tf pp pt c data ns a c' H. destruct (trained_means pf tf pt c data ns a c' H) as (_ & _ & _ & _ & _ & D).
  split; [exact D|]. intros t. split; [reflexivity|]. exact (tau_ignored pf pp c' t).
Qed.
Print Assumptions C87_tau_refuted.
(** training yields a usable contextual DMP, if the function approximators of the DMP have the
    selected parameters *)
Theorem C87_usable : forall predict_fn train_fn ppf_train c data ns a c',
  c_train predict_fn train_fn ppf_train c data ns a = Ok c' -> exp_goal_fits (c_dmp c) -> yields train_fn (fa_names ns) ->
  match m_fas (c_dmp c) with Some fs => length fs = m_dim (c_dmp c) | None => True end ->
  exists fs, usable_ctx c' fs.
Proof.
  intros pf tf pt c data ns a c' H Hg Y Hf. apply (trained_usable _ _ _ _ _ _ _ _ H Hg). exact (trained_selectable _ _ _ _ _ _ _ _ H Y Hf).
Qed.
Print Assumptions C87_usable.
Theorem C87_interpolates : forall predict_fn train_fn ppf_predict ppf_train c data ns a c' fs k q t,
  c_train predict_fn train_fn ppf_train c data ns a = Ok c' -> usable_ctx c' fs ->
  demo_at data k q t -> interpolates ppf_predict ppf_train (map fst data) ->
  exists mk v c2, m_train predict_fn train_fn (m_select (c_dmp c) ns) t = Ok mk /\ m_get_params mk = Ok v /\
    set_task ppf_predict c' (task q) = (c2, Ok tt) /\ m_get_params (c_dmp c2) = Ok v.
Proof.
  intros pf tf pp pt c data ns a c' fs k q t H U Hk Hi.
  destruct (demo_predictions pf tf pp pt _ _ _ _ _ fs k q t H (proj1 U) Hk Hi) as (mk & vk & Ek & P).
  destruct (copy_frame pf tf _ (q, t) mk vk Ek) as [T G]. destruct (set_task_ok pp c' fs U (task q) vk P) as (c2 & E & G2 & _).
  exists mk, vk, c2. auto.
Qed.
Print Assumptions C87_interpolates.
(** Gaussian processes interpolate: any number of tasks, any dimension of the task parameters *)
Theorem C87_gpr : forall mx ls xs, xs <> [] -> Forall (fun x => length x = length ls) xs -> Forall (fun l => l <> 0) ls ->
  interpolates (fun _ => gpr_predict exp) (fun _ x ys => gpr_train exp mx ls (In1 ys) x) xs.
Proof. exact gpr_interpolates. Qed.
Print Assumptions C87_gpr.
Theorem C87_rollout_partial : forall predict_fn train_fn ppf_predict ppf_train c data ns a c' k q t tau y0 yN,
  c_train predict_fn train_fn ppf_train c data ns a = Ok c' ->
  demo_at data k q t -> interpolates ppf_predict ppf_train (map fst data) ->
  alike data tau y0 yN -> get_y0 (c_dmp c) = y0 -> exp_goal_fits (c_dmp c) -> m_scaling (c_dmp c) <> Amplitude ->
  yields train_fn (fa_names ns) -> match m_fas (c_dmp c) with Some fs => length fs = m_dim (c_dmp c) | None => True end ->
  differ_in_selection predict_fn train_fn (m_select (c_dmp c) ns) data ->
  exists mk, m_train predict_fn train_fn (m_select (c_dmp c) ns) t = Ok mk /\
    forall ts sup, snd (c_ana predict_fn ppf_predict c' (task q) (Some ts) sup) = m_ana predict_fn mk (Some ts) sup.
Proof. exact rollout_same. Qed.
Print Assumptions C87_rollout_partial.
(** wrong arguments *)
Theorem C87_no_demonstration : forall predict_fn train_fn ppf_train c ns a,
  c_train predict_fn train_fn ppf_train c [] ns a = Err AttributeError.
Proof. reflexivity. Qed.
Print Assumptions C87_no_demonstration.
Theorem C87_list_length : forall predict_fn train_fn ppf_train c data ns l c',
  c_train predict_fn train_fn ppf_train c data ns (PList l) = Ok c' ->
  exp_goal_fits (c_dmp c) -> selectable_dmp (pdmp_of (c_dmp c')) -> dmp_size (pdmp_of (c_dmp c')) = Ok (length l).
Proof. exact list_length. Qed.
Print Assumptions C87_list_length.
(** a successful training sets everything up: all hypotheses of the theorems above hold *)
Example C87_case : exists c' fs, new_ctx Ijspeert 2 [0] [7] (Some [ex_fa]) no_kw = Ok ex_ctx /\
  c_train ex_pf ex_tf ex_ppf_train ex_ctx ex_data ex_names ex_ppf = Ok c' /\ usable_ctx c' fs /\
  demo_at ex_data 1 [1; 5] ex_demo2 /\ interpolates ex_ppf_predict ex_ppf_train (map fst ex_data) /\
  alike ex_data 3 [0] [3] /\ get_y0 (c_dmp ex_ctx) = [0] /\ exp_goal_fits (c_dmp ex_ctx) /\ m_scaling (c_dmp ex_ctx) = NoScaling /\
  yields ex_tf (fa_names ex_names) /\ differ_in_selection ex_pf ex_tf (m_select (c_dmp ex_ctx) ex_names) ex_data.
Proof.
  destruct ex_usable as (c' & fs & E & U & L). exists c', fs. split; [exact ex_ctx_new|]. split; [exact E|]. split; [exact U|].
  split; [reflexivity|]. split; [exact ex_interpolates|]. split; [exact ex_alike|]. split; [reflexivity|]. split; [exact ex_fits|].
  split; [reflexivity|]. split; [exact ex_yields|exact ex_differ].
Qed.
