(** Proofs about contextual DMPs: integrate_start, exceptions, and Gaussian processes as policy
    parameter functions. *)
From Coq Require Import String.
From Verif Require Import Base BaseLemmas DynModel DynSpec ParamModel ParamSpec ParamProofs TrajModel DmpModel DmpSpec DmpProofs6 DmpProofs8 DmpProofs9 DmpProofs14 FaModel FaSpec FaProperties ContextModel ContextSpec ContextProofs ContextProofs2.
Open Scope R_scope.

Section S.
Variable predict_fn : nat -> list (string * pval) -> R -> res R.
Variable ppf_predict : nat -> list (string * pval) -> mat -> res (list R).

Lemma preds_predicted fs q v : preds ppf_predict 0 fs q = Ok v <-> predicted ppf_predict fs q v.
Proof. apply preds_spec. Qed.
Lemma predicted_unique fs q v v' : predicted ppf_predict fs q v -> predicted ppf_predict fs q v' -> v = v'.
Proof. intros H H'. apply preds_predicted in H. apply preds_predicted in H'. congruence. Qed.
Lemma set_task_some c fs q v : usable_ctx c fs -> predicted ppf_predict fs q v ->
  exists m, m_set_params (c_dmp c) v = (m, Ok tt) /\ set_task ppf_predict c q = (Ctx m (c_ppf c) (c_tau c), Ok tt).
Proof.
  intros U P. destruct (set_task_ok ppf_predict c fs U q v P) as (c' & E & _). exists (c_dmp c').
  rewrite (set_task_preds ppf_predict c fs q) in E by apply U. rewrite (set_task_preds ppf_predict c fs q) by apply U.
  apply preds_predicted in P. rewrite P in *. destruct (m_set_params (c_dmp c) v) as [m r]. assert (r = Ok tt) by congruence. subst r.
  assert (c' = Ctx m (c_ppf c) (c_tau c)) by congruence. subst c'. now split.
Qed.
Lemma start_params c fs q y c' x xd : usable_ctx c fs -> c_start predict_fn ppf_predict c q y = Ok (c', x, xd) ->
  exists v, predicted ppf_predict fs q v /\ m_get_params (c_dmp c') = Ok v.
Proof.
  intros U H. rewrite (start_preds predict_fn ppf_predict c fs q y) in H by apply U.
  destruct (preds ppf_predict 0 fs q) as [v|] eqn:Ep; [|discriminate]. cbn [bind] in H. exists v.
  split; [now apply preds_predicted|]. apply preds_predicted in Ep.
  destruct (set_task_some c fs q v U Ep) as (m & Em & Es). rewrite Em in H. cbn [bind] in H. destruct (column_fails m); [discriminate|].
  destruct (set_task_ok ppf_predict c fs U q v Ep) as (c2 & E2 & G2 & S2 & U2). assert (c2 = Ctx m (c_ppf c) (c_tau c)) by congruence. subst c2. cbn [c_dmp] in *.
  destruct (m_start predict_fn m y) as [[[m3 x'] xd']|] eqn:E3; [|discriminate]. cbn [bind] in H. assert (c' = Ctx m3 (c_ppf c) (c_tau c)) by congruence. subst c'. cbn [c_dmp].
  assert (P : pdmp_of m3 = pdmp_of m).
  { unfold m_start in E3.
    match type of E3 with bind ?x _ = _ => destruct x as [m1|] eqn:E1; [|discriminate] end. cbn [bind] in E3.
    assert (P1 : pdmp_of m1 = pdmp_of m).
    { destruct y as [[|v0 [|]]|]; try discriminate; [|now injection E1 as <-].
      destruct (Req_EM_T v0 0); [now injection E1 as <-|]. apply set_y0_frame in E1. destruct E1 as (_ & sp & g & _ & _ & ->). reflexivity. }
    rewrite <- P1. clear -E3.
    repeat match type of E3 with
           | bind ?x _ = _ => destruct x eqn:?; [cbn [bind] in E3|discriminate]
           | (let '(_, _) := ?x in _) = _ => destruct x eqn:?
           end.
    match goal with q : dmp * list R |- _ => destruct q as [m4 xd4] end. cbn [fst snd] in E3.
    assert (m4 = m3) by congruence. subst m4.
    match goal with Hd : m_diffeq _ _ _ = Ok (m3, _) |- _ => apply diffeq_touch in Hd; destruct Hd as (aa & pp & gg & -> & _) end. reflexivity. }
  unfold m_get_params in *. now rewrite P.
Qed.
Lemma start_agrees c fs q y : usable_ctx c fs -> ~ In "goal"%string (m_sel (c_dmp c)) \/ (m_dim (c_dmp c) <= 1)%nat ->
  c_start predict_fn ppf_predict c q y =
  let '(c', r) := set_task ppf_predict c q in
  let* _ := r in let* s := m_start predict_fn (c_dmp c') y in
  let '(m', x, xd) := s in Ok (Ctx m' (c_ppf c) (c_tau c), x, xd).
Proof.
  intros U Hd. rewrite (start_preds predict_fn ppf_predict c fs q y), (set_task_preds ppf_predict c fs q) by apply U.
  destruct (preds ppf_predict 0 fs q) as [v|] eqn:Ep; [|reflexivity]. cbn [bind]. apply preds_predicted in Ep.
  destruct (set_task_some c fs q v U Ep) as (m & Em & Es). rewrite Em. cbn [bind].
  destruct (set_task_ok ppf_predict c fs U q v Ep) as (c2 & E2 & G2 & S2 & U2). assert (c2 = Ctx m (c_ppf c) (c_tau c)) by congruence. subst c2. cbn [c_dmp] in *.
  destruct S2 as (_ & Q2 & _ & _ & Q5 & _).
  assert (column_fails m = false) as ->; [|reflexivity]. unfold column_fails. rewrite Q2, Q5.
  destruct Hd as [Hd|Hd].
  - destruct (mem "goal" (m_sel (c_dmp c))) eqn:E; [apply mem_In in E; contradiction|reflexivity].
  - apply Nat.leb_gt in Hd || idtac. destruct (Nat.leb_spec 2 (m_dim (c_dmp c))); [lia|]. now rewrite andb_false_r.
Qed.
Lemma start_column c fs q v y : usable_ctx c fs -> predicted ppf_predict fs q v -> In "goal"%string (m_sel (c_dmp c)) -> (2 <= m_dim (c_dmp c))%nat ->
  match m_goal (c_dmp c) with None | Some (SubE _) => True | _ => m_req (c_dmp c) = true \/ m_scaling (c_dmp c) = GMinusY0 end ->
  c_start predict_fn ppf_predict c q y = Err ValueError.
Proof.
  intros U P Hg Hd Hk. rewrite (start_preds predict_fn ppf_predict c fs q y) by apply U.
  pose proof P as P'. apply preds_predicted in P'. rewrite P'. cbn [bind].
  destruct (set_task_some c fs q v U P) as (m & Em & Es). rewrite Em. cbn [bind].
  destruct (set_task_ok ppf_predict c fs U q v P) as (c2 & E2 & G2 & S2 & U2). assert (c2 = Ctx m (c_ppf c) (c_tau c)) by congruence. subst c2. cbn [c_dmp] in *.
  destruct S2 as (_ & Q2 & _ & _ & Q5 & _ & _ & _ & _ & Q10 & Q11 & _ & _ & _ & _ & Q16).
  assert (column_fails m = true) as ->; [|reflexivity]. unfold column_fails. rewrite Q2, Q5, Q10, Q11.
  apply mem_In in Hg. rewrite Hg. destruct (Nat.leb_spec 2 (m_dim (c_dmp c))); [|lia]. cbn [andb].
  unfold same_goal_system in Q16.
  destruct (m_goal (c_dmp c)) as [[e|s|s|s]|]; destruct (m_goal m) as [[]|]; try discriminate; try reflexivity; destruct Hk as [->| ->]; try reflexivity; apply orb_true_r.
Qed.
Lemma vector_rejected c fs d q : usable_ctx c fs -> fs <> [] -> (2 <= d)%nat -> Forall (fun f => f_dim f = Some d) fs ->
  set_task ppf_predict c (In1 q) = (c, Err ValueError) /\ forall y, c_start predict_fn ppf_predict c (In1 q) y = Err ValueError.
Proof.
  intros U N Hd F. assert (Ep : preds ppf_predict 0 fs (In1 q) = Err ValueError).
  { destruct fs as [|f fs]; [congruence|]. inversion F as [|? ? Ef _]; subst. cbn [preds]. unfold predict. rewrite Ef. unfold as_columns.
    destruct q as [|x q]; [reflexivity|]. cbn [bind mcols]. destruct (Nat.eqb_spec 1 d); [lia|reflexivity]. }
  split; [rewrite (set_task_preds ppf_predict c fs) by apply U; now rewrite Ep|].
  intros y. rewrite (start_preds predict_fn ppf_predict c fs _ y) by apply U. now rewrite Ep.
Qed.
End S.

(** ** Gaussian processes *)
Lemma gpr_interpolates mx ls xs : xs <> [] -> Forall (fun x => length x = length ls) xs -> Forall (fun l => l <> 0) ls ->
  interpolates (fun _ => gpr_predict exp) (fun _ x ys => gpr_train exp mx ls (In1 ys) x) xs.
Proof.
  intros Nx Fx Hl i f ys f' Ly Ht k Hk.
  assert (Eh : length (hd [] xs) = length ls) by (destruct xs; [congruence|inversion Fx; subst; assumption]).
  rewrite Eh in Ht.
  assert (Hs : samples (length ls) xs) by (split; [exact Nx|exact Fx]).
  destruct (C71_interpolates (length ls) xs ys mx ls (In1 ys) f f' Hs Ly (or_introl eq_refl) eq_refl Hl Ht) as (E1 & ws & Lw & E2).
  assert (Lk : length (nth k xs []) = length ls) by (rewrite Forall_forall in Fx; apply Fx, nth_In, Hk).
  unfold task. rewrite Lk. rewrite E2; [|discriminate|repeat constructor; exact Lk].
  rewrite E2 in E1 by (try exact Nx; exact Fx). cbn [map]. f_equal. f_equal.
  assert (E3 : map (fun x => mx * rbf_sum xs (repeat ls (length xs)) ws x) xs = ys) by congruence.
  rewrite <- E3. rewrite (nth_map_lt _ _ _ [] 0) by exact Hk. reflexivity.
Qed.

Lemma set_task_fails ppf_predict c fs q : usable_ctx c fs -> ~ (exists v, predicted ppf_predict fs q v) ->
  exists e, set_task ppf_predict c q = (c, Err e).
Proof.
  intros U N. rewrite (set_task_preds ppf_predict c fs q) by apply U. destruct (preds ppf_predict 0 fs q) as [v|e] eqn:E; [|now exists e].
  exfalso. apply N. exists v. now apply preds_predicted.
Qed.
Lemma tau_ignored pf pp c t :
  (forall q ts s, snd (c_ana pf pp (c_set_tau c t) q ts s) = snd (c_ana pf pp c q ts s)) /\
  (forall q x, rates_for pf pp (c_set_tau c t) q x = rates_for pf pp c q x).
Proof.
  assert (H : forall q, set_task pp (c_set_tau c t) q = (c_set_tau (fst (set_task pp c q)) t, snd (set_task pp c q))).
  { intros q. unfold set_task. cbn [c_dmp c_ppf c_set_tau c_tau].
    destruct (let* v := m_get_params (c_dmp c) in match c_ppf c with Some fs => fill pp v 0 fs q | None => Err TypeError end) as [v|]; [|reflexivity].
    destruct (m_set_params (c_dmp c) v). reflexivity. }
  split; intros.
  - unfold c_ana. rewrite H. destruct (set_task pp c q) as [c' [[]|]]; reflexivity.
  - unfold rates_for. rewrite H. destruct (set_task pp c q) as [c' [[]|]]; [|reflexivity]. cbn [fst snd bind]. unfold c_diffeq. cbn [c_dmp c_set_tau].
    destruct (m_diffeq pf (c_dmp c') x) as [[]|]; reflexivity.
Qed.
Lemma list_length pf tf pt c data ns l c' : c_train pf tf pt c data ns (PList l) = Ok c' ->
  exp_goal_fits (c_dmp c) -> selectable_dmp (pdmp_of (c_dmp c')) -> dmp_size (pdmp_of (c_dmp c')) = Ok (length l).
Proof.
  intros H Hg Hs. destruct (trained_usable _ _ _ _ _ _ _ _ H Hg Hs) as (fs & U1 & U2 & _). rewrite U2. f_equal.
  destruct (c_train_split _ _ _ _ _ _ _ _ H) as (copies & mL & vL & m' & gs & ppf & _ & _ & _ & _ & _ & _ & _ & Hl & Lp & _ & ->).
  cbn [c_ppf] in U1. assert (fs = ppf) by congruence. subst fs. unfold ppf_list in Hl. destruct (Nat.eqb_spec (length l) (length vL)); [congruence|discriminate].
Qed.
