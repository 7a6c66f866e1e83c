(** Proofs about contextual DMPs: setting the task parameters, and histories. *)
From Coq Require Import String.
From Verif Require Import Base BaseLemmas DynModel DynSpec ParamModel ParamSpec ParamProofs TrajModel DmpModel DmpSpec DmpProofs8 DmpProofs14 ContextModel ContextSpec.
Open Scope R_scope.

Section S.
Variable predict_fn : nat -> list (string * pval) -> R -> res R.
Variable ppf_predict : nat -> list (string * pval) -> mat -> res (list R).

Fixpoint preds (i : nat) (fs : list fa) (q : input) : res (list R) :=
  match fs with
  | [] => Ok []
  | f :: fs' => let* p := predict f (ppf_predict i) q in
                let* x := scalar p in
                let* xs := preds (S i) fs' q in Ok (x :: xs)
  end.
Lemma preds_length fs : forall i q v, preds i fs q = Ok v -> length v = length fs.
Proof.
  induction fs as [|f fs IH]; intros i q v H; cbn in H; [now injection H as <-|].
  destruct (predict _ _ _); [|discriminate]. cbn in H. destruct (scalar _); [|discriminate]. cbn in H.
  destruct (preds _ _ _) eqn:E; [|discriminate]. injection H as <-. cbn. now rewrite (IH _ _ _ E).
Qed.
Lemma preds_spec fs : forall i q v, preds i fs q = Ok v <->
  length v = length fs /\ forall j f, nth_error fs j = Some f -> predict f (ppf_predict (i + j)) q = Ok [nth j v 0].
Proof.
  induction fs as [|f fs IH]; intros i q v.
  - cbn. split; [intros H; injection H as <-; split; [reflexivity|intros [|j] ? H; discriminate]|].
    intros [H _]. now destruct v.
  - cbn [preds]. split.
    + intros H. destruct (predict f (ppf_predict i) q) as [p|] eqn:Ep; [|discriminate]. cbn [bind] in H.
      destruct p as [|x [|? ?]]; try discriminate. cbn [scalar bind] in H.
      destruct (preds (S i) fs q) as [xs|] eqn:E; [|discriminate]. cbn [bind] in H. assert (v = x :: xs) by congruence. subst v.
      destruct (proj1 (IH _ _ _) E) as [L G]. split; [cbn; now rewrite L|]. intros [|j] g Hg.
      * cbn in Hg. injection Hg as <-. rewrite Nat.add_0_r. exact Ep.
      * cbn in Hg |- *. rewrite <- (G j g Hg). f_equal. f_equal. lia.
    + intros [L G]. destruct v as [|x xs]; [discriminate|].
      pose proof (G 0%nat f eq_refl) as Ep. rewrite Nat.add_0_r in Ep. rewrite Ep. cbn [bind scalar nth].
      assert (E : preds (S i) fs q = Ok xs).
      { apply IH. split; [cbn in L; lia|]. intros j g Hg. specialize (G (S j) g Hg). cbn [nth] in G. rewrite <- G. f_equal. f_equal. lia. }
      now rewrite E.
Qed.
Lemma firstn_set {A} (v : list A) : forall i x, (i < length v)%nat -> firstn (S i) (set_nth v i x) = (firstn i v ++ [x])%list.
Proof.
  induction v as [|a v IH]; intros [|i] x H; cbn in H; try lia; [reflexivity|]. cbn [set_nth firstn app]. f_equal.
  rewrite <- IH by lia. reflexivity.
Qed.
Lemma fill_preds fs : forall v i q, length v = (i + length fs)%nat ->
  fill ppf_predict v i fs q = let* xs := preds i fs q in Ok (firstn i v ++ xs)%list.
Proof.
  induction fs as [|f fs IH]; intros v i q H.
  - cbn in *. rewrite app_nil_r, firstn_all2 by lia. reflexivity.
  - cbn [fill preds length] in *. destruct (predict _ _ _) as [p|]; [|reflexivity]. cbn [bind]. destruct (scalar p) as [x|]; [|reflexivity].
    cbn [bind]. destruct (Nat.ltb_spec i (length v)); [|lia].
    rewrite IH by (rewrite length_set_nth; lia). destruct (preds (S i) fs q); [|reflexivity]. cbn [bind].
    rewrite firstn_set by trivial. now rewrite <- app_assoc.
Qed.
Lemma mapM_preds fs q : forall k pre, k = length fs ->
  mapM (fun i => let* f := nth_res (pre ++ fs)%list i in let* p := predict f (ppf_predict i) q in scalar p) (seq (length pre) k) = preds (length pre) fs q.
Proof.
  induction fs as [|f fs IH]; intros k pre ->; [reflexivity|]. cbn [length seq mapM preds].
  unfold nth_res at 1. rewrite nth_error_app2, Nat.sub_diag by lia. cbn [nth_error bind].
  destruct (predict _ _ _) as [p|]; [|reflexivity]. cbn [bind]. destruct (scalar p); [|reflexivity]. cbn [bind].
  specialize (IH (length fs) (pre ++ [f])%list eq_refl). rewrite app_length in IH. cbn [length] in IH.
  replace (length pre + 1)%nat with (S (length pre)) in IH by lia. rewrite <- app_assoc in IH. cbn [app] in IH. now rewrite IH.
Qed.

(** set_task_params in terms of the predictions *)
Lemma set_task_preds c fs q : c_ppf c = Some fs -> dmp_size (pdmp_of (c_dmp c)) = Ok (length fs) -> selectable_dmp (pdmp_of (c_dmp c)) ->
  set_task ppf_predict c q = match preds 0 fs q with
                             | Err e => (c, Err e)
                             | Ok v => let '(m, r) := m_set_params (c_dmp c) v in (Ctx m (c_ppf c) (c_tau c), r)
                             end.
Proof.
  intros Hp Hs Hd. unfold set_task, m_get_params. destruct (dmp_get_size _ Hd) as (v & Ev & Sv). rewrite Ev. cbn [bind]. rewrite Hp.
  rewrite fill_preds by (cbn; congruence). destruct (preds 0 fs q); reflexivity.
Qed.
Lemma start_preds c fs q y : c_ppf c = Some fs -> dmp_size (pdmp_of (c_dmp c)) = Ok (length fs) ->
  c_start predict_fn ppf_predict c q y =
  let* v := preds 0 fs q in
  let '(m, r) := m_set_params (c_dmp c) v in
  let* _ := r in
  if column_fails m then Err ValueError else
  let* s := m_start predict_fn m y in
  let '(m', x, xd) := s in
  Ok (Ctx m' (c_ppf c) (c_tau c), x, xd).
Proof.
  intros Hp Hs. unfold c_start. rewrite Hs. cbn [bind]. rewrite Hp.
  pose proof (mapM_preds fs q (length fs) [] eq_refl) as E. cbn [app length] in E. now rewrite E.
Qed.

(** setting parameters changes nothing else *)
Lemma goal_len m : exp_goal_fits m -> match m_goal m with Some (SubE e) => length (e_init e) = m_dim m | _ => True end.
Proof. unfold exp_goal_fits. destruct (m_goal m) as [[]|]; tauto. Qed.
Lemma set_params_frame m v m' : selectable_dmp (pdmp_of m) -> synced m -> exp_goal_fits m -> dmp_size (pdmp_of m) = Ok (length v) ->
  m_set_params m v = (m', Ok tt) ->
  m_get_params m' = Ok v /\ same_but_params m m' /\ synced m' /\ exp_goal_fits m'.
Proof.
  intros Hs Sy Hg Hv Em. destruct (set_params_ok m Hs (goal_len m Hg) v Hv) as (fs & rest & E & m2 & Em2 & H1 & H2).
  assert (m2 = m') by congruence. subst m2.
  destruct (dmp_set_ok _ v Hs Hv) as (p' & Ep & Gp & Sp & Hp & Sf & Es & Ed & Ea).
  assert (Hpd : pdmp_of m' = p').
  { unfold dmp_set in Ep. rewrite Hv, Nat.eqb_refl, E in Ep. cbn [p_fas p_sel p_attr p_dim pdmp_of] in Ep.
    destruct (mem "goal" (m_sel m)).
    - destruct (H2 eq_refl) as (Hl & g & Eg & ->). unfold set_attr in Ep. cbn [p_dim p_fas p_sel] in Ep.
      rewrite Hl, Nat.eqb_refl in Ep. injection Ep as <-. reflexivity.
    - rewrite (H1 eq_refl). injection Ep as <-. reflexivity. }
  split; [unfold m_get_params; now rewrite Hpd|]. rewrite <- Hpd in Sf.
  unfold same_but_params. rewrite <- mem_In.
  destruct (mem "goal" (m_sel m)) eqn:Mg.
  - destruct (H2 eq_refl) as (Hl & g & Eg & ->). cbn in *.
    assert (G : same_goal_system (m_goal m) g /\ match g with Some (SubE e) => e_attr e = firstn (m_dim m) rest | _ => True end /\
      match g with Some (SubE e) => length (e_init e) = m_dim m /\ m_req m = false | _ => True end).
    { unfold goal_attr in Eg. unfold exp_goal_fits, same_goal_system in *.
      destruct (m_goal m) as [[e|s|h|h]|]; cbn in Eg; try (destruct (m_req m); injection Eg as <-; auto; fail).
      - destruct Hg as [Hl2 Hr]. rewrite Hr in Eg. destruct (Nat.eqb _ _); [|discriminate]. cbn in Eg. injection Eg as <-. cbn. auto. }
    destruct G as (G1 & G2 & G3). split; [|split; [exact G2|exact G3]].
    do 13 (split; [reflexivity|]). split; [exact Sf|]. split; [intros C; now elim C|exact G1].
  - rewrite (H1 eq_refl) in *. split; [|split; [exact Sy|exact Hg]].
    do 13 (split; [reflexivity|]). split; [exact Sf|]. split; [now split|].
    unfold same_goal_system. cbn. destruct (m_goal m) as [[]|]; auto.
Qed.

(** setting parameters of a DMP on which computations were made *)
Lemma set_touched m m1 v : selectable_dmp (pdmp_of m) -> synced m -> exp_goal_fits m -> touched m m1 ->
  touched (fst (m_set_params m v)) (fst (m_set_params m1 v)) /\ snd (m_set_params m1 v) = snd (m_set_params m v).
Proof.
  intros Hs Sy Hg T. pose proof (touched_goal m m1 Sy T) as Eg. destruct T as (a & p & g & E & Hp & _).
  assert (g = m_goal m) by (rewrite E in Eg; exact Eg). subst g. set (sp := Dsys _ _ a p _ _ _) in *.
  assert (Hsp : forall n, m_spring n = m_spring m -> m_damping n = m_damping m -> m_dim n = m_dim m ->
    touched n (upd_spring n sp (m_goal n))).
  { intros n N1 N2 N3. exists a, p, (m_goal n). rewrite N1, N2, N3. split; [reflexivity|]. split; [exact Hp|]. destruct (m_goal n); auto. }
  subst m1. unfold m_set_params. change (pdmp_of (upd_spring m sp (m_goal m))) with (pdmp_of m).
  destruct (dmp_set (pdmp_of m) v) as [p' [u|e]] eqn:Ed; cbn [fst snd].
  - change (m_sel (upd_spring m sp (m_goal m))) with (m_sel m). destruct (mem "goal" (m_sel m)); cbn [fst snd].
    + change (goal_attr (upd_fas (upd_spring m sp (m_goal m)) (p_fas p')) (p_attr p')) with (goal_attr (upd_fas m (p_fas p')) (p_attr p')).
      destruct (goal_attr (upd_fas m (p_fas p')) (p_attr p')) as [g|e]; cbn [fst snd]; split; try reflexivity.
      * apply (Hsp (upd_attr (upd_fas m (p_fas p')) (p_attr p') g)); reflexivity.
      * apply (Hsp (upd_fas m (p_fas p'))); reflexivity.
    + split; [|reflexivity]. apply (Hsp (upd_fas m (p_fas p'))); reflexivity.
  - split; [|reflexivity]. apply (Hsp (upd_fas m (p_fas p'))); reflexivity.
Qed.

(** the invariant of histories *)
Definition inv (m m' : dmp) : Prop := exists m1, reach m m1 /\ touched m1 m'.
Section H.
Variable c : ctx.
Variable fs : list fa.
Hypothesis U : usable_ctx c fs.
Let m := c_dmp c.

Lemma U_size : dmp_size (pdmp_of m) = Ok (length fs). Proof. apply U. Qed.
Lemma U_sel : selectable_dmp (pdmp_of m). Proof. apply U. Qed.
Lemma U_sync : synced m. Proof. apply U. Qed.
Lemma U_goal : exp_goal_fits m. Proof. apply U. Qed.

Lemma reach_keeps m1 : reach m m1 -> selectable_dmp (pdmp_of m1) /\ synced m1 /\ exp_goal_fits m1 /\ dmp_size (pdmp_of m1) = Ok (length fs).
Proof.
  intros R. destruct (reach_size m U_sel (goal_len m U_goal) m1 R) as (Sz & Hs & _). rewrite U_size in Sz.
  split; [exact Hs|]. destruct R as [->|(v & Hv & ->)]; [split; [apply U_sync|split; [apply U_goal|exact Sz]]|].
  destruct (set_params_ok m U_sel (goal_len m U_goal) v Hv) as (fs' & rest & E & m2 & Em2 & _). rewrite Em2 in *. cbn [fst] in *.
  destruct (set_params_frame m v m2 U_sel U_sync U_goal Hv Em2) as (_ & _ & A & B). auto.
Qed.
Lemma touched_pdmp m1 m2 : touched m1 m2 -> pdmp_of m2 = pdmp_of m1.
Proof. intros (a & p & g & -> & _). reflexivity. Qed.
Lemma inv_set m' v : inv m m' -> length v = length fs ->
  exists mA mB r, m_set_params m v = (mA, r) /\ m_set_params m' v = (mB, r) /\ touched mA mB /\ synced mA /\ reach m mA.
Proof.
  intros (m1 & R & T) Hv. destruct (reach_keeps m1 R) as (K1 & K2 & K3 & K4).
  destruct (set_touched m1 m' v K1 K2 K3 T) as [T2 Er].
  assert (Es : m_set_params m1 v = m_set_params m v) by (apply (reach_set m U_sel (goal_len m U_goal)); [exact R|]; rewrite U_size; congruence).
  rewrite Es in T2, Er. destruct (m_set_params m v) as [mA r] eqn:EA. destruct (m_set_params m' v) as [mB r'] eqn:EB. cbn in *.
  assert (RA : reach m mA). { right. exists v. rewrite U_size, EA. split; [congruence|reflexivity]. }
  exists mA, mB, r. split; [reflexivity|]. split; [congruence|]. split; [exact T2|]. split; [apply (reach_keeps mA RA)|exact RA].
Qed.

Definition cinv (c' : ctx) : Prop := inv m (c_dmp c') /\ c_ppf c' = c_ppf c.
Lemma cinv_usable c' : cinv c' -> c_ppf c' = Some fs /\ dmp_size (pdmp_of (c_dmp c')) = Ok (length fs) /\ selectable_dmp (pdmp_of (c_dmp c')).
Proof.
  intros [(m1 & R & T) Hp]. destruct (reach_keeps m1 R) as (K1 & K2 & K3 & K4). rewrite (touched_pdmp _ _ T), Hp.
  split; [apply U|]. now split.
Qed.

(** set_task_params before and after a history *)
Lemma task_same c' q : cinv c' ->
  (exists e, set_task ppf_predict c q = (c, Err e) /\ set_task ppf_predict c' q = (c', Err e)) \/
  (exists v mA mB r, preds 0 fs q = Ok v /\ set_task ppf_predict c q = (Ctx mA (c_ppf c) (c_tau c), r) /\
     set_task ppf_predict c' q = (Ctx mB (c_ppf c) (c_tau c'), r) /\ m_set_params m v = (mA, r) /\ m_set_params (c_dmp c') v = (mB, r) /\
     touched mA mB /\ synced mA /\ reach m mA).
Proof.
  intros I. destruct (cinv_usable c' I) as (P1 & P2 & P3).
  rewrite (set_task_preds c fs q) by apply U. rewrite (set_task_preds c' fs q) by assumption.
  destruct (preds 0 fs q) as [v|e] eqn:Ep; [right|left; now exists e].
  destruct (inv_set (c_dmp c') v (proj1 I) (preds_length _ _ _ _ Ep)) as (mA & mB & r & EA & EB & T & Sy & R).
  exists v, mA, mB, r. unfold m in EA. rewrite EA, EB. destruct I as [_ <-]. repeat (split; [reflexivity|]). now repeat split.
Qed.
Lemma task_inv c' q : cinv c' -> cinv (fst (set_task ppf_predict c' q)).
Proof.
  intros I. destruct (task_same c' q I) as [(e & _ & ->)|(v & mA & mB & r & _ & _ & -> & _ & _ & T & _ & R)]; [exact I|].
  split; [|reflexivity]. exists mA. now split.
Qed.
Lemma touched_inv c' m2 : cinv c' -> touched (c_dmp c') m2 -> cinv (Ctx m2 (c_ppf c') (c_tau c')).
Proof. intros [(m1 & R & T) Hp] T2. split; [exists m1; split; [exact R|eapply touched_trans; eauto]|exact Hp]. Qed.
Lemma start_inv c' q c2 x xd : cinv c' -> c_start predict_fn ppf_predict c' q None = Ok (c2, x, xd) -> cinv c2.
Proof.
  intros I H. destruct (cinv_usable c' I) as (P1 & P2 & P3). rewrite (start_preds c' fs q None P1 P2) in H.
  destruct (preds 0 fs q) as [v|] eqn:Ep; [|discriminate]. cbn [bind] in H.
  destruct (inv_set (c_dmp c') v (proj1 I) (preds_length _ _ _ _ Ep)) as (mA & mB & r & EA & EB & T & Sy & R). rewrite EB in H.
  destruct r as [u|]; [|discriminate]. cbn [bind] in H. destruct (column_fails mB); [discriminate|].
  destruct (m_start predict_fn mB None) as [[[m3 x'] xd']|] eqn:E3; [|discriminate]. cbn [bind] in H. 
  assert (Hc : c2 = Ctx m3 (c_ppf c') (c_tau c')) by congruence. subst c2.
  pose proof (start_touch predict_fn mB m3 _ _ E3) as T3.
  split; [|exact (proj2 I)]. exists mA. split; [exact R|]. cbn [c_dmp]. eapply touched_trans; eauto.
Qed.
Lemma calls_inv ks : forall c' c2, cinv c' -> ccalls predict_fn ppf_predict c' ks = Ok c2 -> cinv c2.
Proof.
  induction ks as [|k ks IH]; intros c' c2 I H; [cbn in H; injection H as <-; exact I|].
  cbn [ccalls] in H. destruct (ccall1 predict_fn ppf_predict c' k) as [c3|] eqn:E; [|discriminate]. cbn [bind] in H.
  apply (IH c3); [|exact H]. clear IH H. destruct k as [q|q ts s|q|x]; cbn [ccall1] in E.
  - injection E as <-. now apply task_inv.
  - injection E as <-. pose proof (task_inv c' q I) as T. unfold c_ana. destruct (set_task ppf_predict c' q). exact T.
  - destruct (c_start predict_fn ppf_predict c' q None) as [[[c4 x] xd]|] eqn:E4; [|discriminate]. cbn in E. injection E as <-.
    eapply start_inv; eauto.
  - unfold c_diffeq in E. destruct (m_diffeq predict_fn (c_dmp c') x) as [[m2 xd]|] eqn:E4; [|discriminate]. cbn in E. injection E as <-.
    apply touched_inv; [exact I|]. eapply diffeq_touch; eauto.
Qed.
Lemma cinv_refl : cinv c.
Proof. split; [|reflexivity]. exists m. split; [now left|apply touched_refl]. Qed.
Lemma column_touched m1 m2 : synced m1 -> touched m1 m2 -> column_fails m2 = column_fails m1.
Proof. intros Sy T. pose proof (touched_goal _ _ Sy T) as E. destruct T as (a & p & g & -> & _). cbn in E. subst g. reflexivity. Qed.

Lemma calls_ana ks c' q ts s : ccalls predict_fn ppf_predict c ks = Ok c' ->
  snd (c_ana predict_fn ppf_predict c' q ts s) = snd (c_ana predict_fn ppf_predict c q ts s).
Proof.
  intros H. pose proof (calls_inv ks c c' cinv_refl H) as I. unfold c_ana.
  destruct (task_same c' q I) as [(e & -> & ->)|(v & mA & mB & r & _ & -> & -> & _ & _ & T & Sy & R)]; [reflexivity|].
  cbn [snd c_dmp]. destruct r as [u|]; [|reflexivity]. cbn [bind]. unfold m_ana.
  assert (Et : m_ts_train mB = m_ts_train mA) by (destruct T as (a & p & g & -> & _); reflexivity). rewrite Et.
  destruct ts as [ts|]; [now apply touch_ana|]. destruct (m_ts_train mA); [now apply touch_ana|reflexivity].
Qed.
Lemma calls_start ks c' q : ccalls predict_fn ppf_predict c ks = Ok c' ->
  start_values predict_fn ppf_predict c' q = start_values predict_fn ppf_predict c q.
Proof.
  intros H. pose proof (calls_inv ks c c' cinv_refl H) as I. destruct (cinv_usable c' I) as (P1 & P2 & P3). unfold start_values.
  rewrite (start_preds c' fs q None P1 P2), (start_preds c fs q None) by apply U.
  destruct (preds 0 fs q) as [v|] eqn:Ep; [|reflexivity]. cbn [bind].
  destruct (inv_set (c_dmp c') v (proj1 I) (preds_length _ _ _ _ Ep)) as (mA & mB & r & EA & EB & T & Sy & R).
  unfold m in EA. rewrite EA, EB. destruct r as [u|]; [|reflexivity]. cbn [bind]. rewrite (column_touched mA mB Sy T).
  destruct (column_fails mA); [reflexivity|]. rewrite (touch_start predict_fn mA mB Sy T).
  destruct (m_start predict_fn mA None) as [[[m3 x'] xd']|]; reflexivity.
Qed.
Lemma calls_rates ks c' q x : ccalls predict_fn ppf_predict c ks = Ok c' ->
  rates_for predict_fn ppf_predict c' q x = rates_for predict_fn ppf_predict c q x.
Proof.
  intros H. pose proof (calls_inv ks c c' cinv_refl H) as I. unfold rates_for.
  destruct (task_same c' q I) as [(e & -> & ->)|(v & mA & mB & r & _ & -> & -> & _ & _ & T & Sy & R)]; [reflexivity|].
  destruct r as [u|]; [|reflexivity]. cbn [bind]. unfold c_diffeq. cbn [c_dmp]. rewrite (touch_diffeq predict_fn mA mB x T). now destruct (m_diffeq predict_fn mA x).
Qed.
(** a history leaves the contextual DMP usable *)
Lemma calls_usable ks c' : ccalls predict_fn ppf_predict c ks = Ok c' -> usable_ctx c' fs.
Proof.
  intros H. pose proof (calls_inv ks c c' cinv_refl H) as I. destruct (cinv_usable c' I) as (P1 & P2 & P3).
  do 3 (split; [trivial|]). destruct I as [(m1 & R & T) _]. destruct (reach_keeps m1 R) as (K1 & K2 & K3 & K4).
  pose proof (touched_goal m1 _ K2 T) as Eg. unfold synced, exp_goal_fits in *. rewrite Eg.
  destruct T as (a & p & g & -> & _). now split.
Qed.

(** the parameters after set_task_params *)
Lemma set_task_ok q v : predicted ppf_predict fs q v ->
  exists c', set_task ppf_predict c q = (c', Ok tt) /\ m_get_params (c_dmp c') = Ok v /\
    same_but_params (c_dmp c) (c_dmp c') /\ usable_ctx c' fs.
Proof.
  intros [L G]. assert (Ep : preds 0 fs q = Ok v) by (apply preds_spec; now split).
  rewrite (set_task_preds c fs q) by apply U. rewrite Ep.
  assert (Hv : dmp_size (pdmp_of m) = Ok (length v)) by (rewrite L; apply U_size).
  destruct (set_params_ok m U_sel (goal_len m U_goal) v Hv) as (fs' & rest & E & m2 & Em2 & _).
  pose proof Em2 as Em. unfold m in Em. rewrite Em. exists (Ctx m2 (c_ppf c) (c_tau c)). split; [reflexivity|].
  destruct (set_params_frame m v m2 U_sel U_sync U_goal Hv Em2) as (A & B & C & D). split; [exact A|]. split; [exact B|].
  split; [apply U|]. split; [|split; [|now split]].
  - assert (R : reach m m2) by (right; exists v; rewrite Em2; now split). apply (reach_keeps m2 R).
  - assert (R : reach m m2) by (right; exists v; rewrite Em2; now split). apply (reach_keeps m2 R).
Qed.
Lemma set_task_inv q c' : set_task ppf_predict c q = (c', Ok tt) -> exists v, predicted ppf_predict fs q v.
Proof.
  rewrite (set_task_preds c fs q) by apply U. destruct (preds 0 fs q) as [v|] eqn:Ep; [|discriminate].
  intros _. exists v. now apply preds_spec in Ep.
Qed.
End H.
End S.
