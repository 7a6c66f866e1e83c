(** Proofs about DMPs: setting the parameter vector forgets the previous one; rollouts do not depend on
    the history. *)
From Coq Require Import String.
From Verif Require Import Base BaseLemmas DynModel DynSpec DynProofs ParamModel ParamSpec ParamProofs TrajModel DmpModel DmpSpec.
Open Scope R_scope.

Lemma assign_assign {V} (d : list (string * V)) k v w : assign (assign d k v) k w = assign d k w.
Proof.
  induction d as [|[k' v'] d IH]; cbn.
  - now rewrite String.eqb_refl.
  - destruct (String.eqb k k') eqn:E; cbn; rewrite E; [reflexivity|]. now rewrite IH.
Qed.
Lemma assign_comm {V} (d : list (string * V)) k v l w : k <> l -> lookup d k <> None -> lookup d l <> None ->
  assign (assign d k v) l w = assign (assign d l w) k v.
Proof.
  intros H. induction d as [|[k' v'] d IH]; cbn; [congruence|]. intros Hk Hl.
  destruct (String.eqb k k') eqn:Ek, (String.eqb l k') eqn:El; cbn; rewrite ?Ek, ?El; try reflexivity.
  - apply String.eqb_eq in Ek, El. congruence.
  - now rewrite IH.
Qed.

Lemma set_after_assign sel : forall m k s a b vs, In k sel -> lookup m k = Some (PArr (Arr s a)) ->
  (forall l, In l sel -> lookup m l <> None) -> s <> [] ->
  set_values m sel vs = (fst (set_values m sel vs), Ok tt) ->
  set_values (assign m k (PArr (Arr s b))) sel vs = set_values m sel vs.
Proof.
  induction sel as [|l sel IH]; intros m k s a b vs Hin Hk Hall Hs; [destruct Hin|].
  cbn [set_values]. destruct (string_dec l k) as [->|Hne].
  - rewrite lookup_assign_eq, Hk. destruct s as [|s0 s]; [congruence|].
    destruct (Nat.eqb _ _); [|discriminate]. intros _. now rewrite assign_assign.
  - rewrite lookup_assign_neq by trivial. destruct (lookup m l) as [[ |[[|s1 s'] a']| ]|] eqn:El; try discriminate.
    destruct (Nat.eqb _ _) eqn:En; [|discriminate]. cbn [fst]. intros Hok.
    rewrite assign_comm by congruence.
    destruct Hin as [E|Hin]; [congruence|]. eapply IH; trivial.
    + rewrite lookup_assign_neq by congruence. exact Hk.
    + intros l' Hl'. destruct (string_dec l' l) as [->|Hn]; [now rewrite lookup_assign_eq|].
      rewrite lookup_assign_neq by trivial. apply Hall. now right.
Qed.
Lemma set_twice sel' : forall sel m us vs, incl sel' sel -> NoDup sel -> arrs m sel -> sizes m sel = Ok (length vs) ->
  set_values (fst (set_values m sel' us)) sel vs = set_values m sel vs.
Proof.
  induction sel' as [|k sel' IH]; intros sel m us vs Hinc Hnd Harr Hsz; cbn [set_values fst]; [reflexivity|].
  assert (Hk : In k sel) by (apply Hinc; now left).
  assert (Hinc' : incl sel' sel) by (intros z Hz; apply Hinc; now right).
  unfold arrs in Harr. destruct (proj1 (Forall_forall _ _) Harr k Hk) as (a & Ea & Pa). rewrite Ea.
  destruct a as [[|s0 s] a]; [destruct Pa as [Pa _]; now contradict Pa|].
  destruct (Nat.eqb _ _) eqn:En; [|reflexivity]. apply Nat.eqb_eq in En.
  assert (Harr' : arrs (assign m k (PArr (Arr (s0 :: s) (firstn (prod (s0 :: s)) us)))) sel).
  { apply arrs_assign; trivial; congruence. }
  rewrite IH; trivial.
  2:{ rewrite (sizes_assign _ _ _ a) by exact Ea. exact Hsz. }
  destruct (set_values_ok sel m vs Hnd Harr Hsz) as (m' & E & _).
  eapply set_after_assign; [exact Hk|exact Ea| |discriminate|].
  - intros l Hl. destruct (proj1 (Forall_forall _ _) Harr l Hl) as (b & Eb & _). congruence.
  - now rewrite E.
Qed.

Lemma fa_twice f u v : selectable f -> fa_size f = Ok (length v) -> fa_set (fst (fa_set f u)) v = fa_set f v.
Proof.
  intros Hs Hv. destruct (selectable_inv f Hs) as (sel & Es & Et & Hnd & Harr).
  unfold fa_set at 2. rewrite Et. destruct (fa_size f) as [k|] eqn:Ek; [|discriminate]. injection Hv as ->.
  destruct (Nat.eqb (length u) (length v)) eqn:En; [|reflexivity]. rewrite Es.
  destruct (set_values (f_model f) sel u) as [m1 r1] eqn:E1. cbn [fst].
  pose proof (set_twice sel sel (f_model f) u v (incl_refl _) Hnd Harr) as H. rewrite E1 in H. cbn [fst] in H.
  assert (Hsz : sizes (f_model f) sel = Ok (length v)) by (unfold fa_size in Ek; now rewrite Es in Ek).
  specialize (H Hsz).
  apply Nat.eqb_eq in En.
  assert (Hsz1 : sizes m1 sel = Ok (length v)).
  { destruct (set_values_ok sel (f_model f) u Hnd Harr ltac:(now rewrite En)) as (m1' & E1' & G1 & A1).
    rewrite E1 in E1'. injection E1' as -> _. destruct (get_values_ok sel m1' A1) as (vs & G2 & S2). congruence. }
  unfold fa_set. cbn [f_dim f_sel f_model is_trained]. unfold is_trained in *. cbn [f_dim]. rewrite Et.
  unfold fa_size. cbn [f_sel f_model]. rewrite Es, Hsz, Hsz1, Nat.eqb_refl. now rewrite H.
Qed.
Lemma is_trained_set f v : is_trained (fst (fa_set f v)) = is_trained f.
Proof.
  unfold fa_set. destruct (is_trained f) eqn:E; [|trivial]. destruct (fa_size f); [|trivial]. destruct (Nat.eqb _ _); [|trivial].
  destruct (f_sel f); [|trivial]. destruct (set_values _ _ _). exact E.
Qed.
Lemma fas_twice fs : forall us vs n, sel_fas fs -> fas_size fs = Ok n -> (n <= length us)%nat -> (n <= length vs)%nat ->
  fas_set (fst (fas_set fs us)) vs = fas_set fs vs.
Proof.
  induction fs as [|f fs IH]; intros us vs n F Hn Hu Hv; [reflexivity|].
  inversion F as [|f' fs' F1 F2]; subst. cbn [fas_size fas_set] in *. destruct (is_trained f) eqn:Et.
  - destruct (fa_size f) as [k|] eqn:Ek; [|discriminate]. cbn [bind] in Hn.
    destruct (fas_size fs) as [k'|] eqn:Ek'; [|discriminate]. injection Hn as <-.
    specialize (F1 eq_refl).
    destruct (fa_set_ok f (firstn k us) F1) as (f1 & E1 & H1 & H2 & H3).
    { rewrite firstn_length_le by lia. exact Ek. }
    rewrite E1. destruct (fas_set fs (skipn k us)) as [fs2 r2] eqn:E2. cbn [fst fas_set].
    pose proof (is_trained_set f (firstn k us)) as Ht. rewrite E1 in Ht. cbn [fst] in Ht. rewrite Ht, Et.
    assert (Hk1 : fa_size f1 = Ok k).
    { rewrite H2. rewrite firstn_length_le by lia. reflexivity. }
    rewrite Hk1. pose proof (fa_twice f (firstn k us) (firstn k vs) F1 ltac:(rewrite firstn_length_le by lia; exact Ek)) as H.
    rewrite E1 in H. cbn [fst] in H. rewrite H.
    destruct (fa_set f (firstn k vs)) as [f3 [u3|e3]] eqn:E3.
    + pose proof (IH (skipn k us) (skipn k vs) k' F2 eq_refl) as IH'. rewrite E2 in IH'. cbn [fst] in IH'.
      rewrite IH' by (rewrite skipn_length; lia). reflexivity.
    + exfalso. destruct (fa_set_ok f (firstn k vs) F1) as (f4 & E4 & _).
      { rewrite firstn_length_le by lia. exact Ek. }
      congruence.
  - destruct (fas_set fs us) as [fs2 r2] eqn:E2. cbn [fst fas_set]. rewrite Et.
    pose proof (IH us vs n F2 Hn Hu Hv) as IH'. rewrite E2 in IH'. cbn [fst] in IH'. now rewrite IH'.
Qed.

Lemma fas_of_set p fs' : (p_fas p = None -> fs' = []) ->
  fas_of (Pdmp (option_map (fun _ => fs') (p_fas p)) (p_sel p) (p_attr p) (p_dim p)) = fs'.
Proof. unfold fas_of. cbn. destruct (p_fas p); cbn; [reflexivity|]. intros H. now rewrite H. Qed.

(** the DMP with a parameter vector set *)
Section M.
Variable m : dmp.
Hypothesis Hsel : selectable_dmp (pdmp_of m).
Hypothesis Hgoal : match m_goal m with Some (SubE e) => length (e_init e) = m_dim m | _ => True end.

Lemma set_params_wrong v : dmp_size (pdmp_of m) <> Ok (length v) -> m_set_params m v = (upd_fas m (m_fas m), Err ValueError).
Proof.
  intros H. destruct (dmp_get_size _ Hsel) as (w & _ & Sw). unfold m_set_params.
  rewrite (dmp_set_wrong _ v _ Sw) by congruence. reflexivity.
Qed.
(** the result of setting the parameter vector, explicitly *)
Lemma set_params_ok v : dmp_size (pdmp_of m) = Ok (length v) -> exists fs rest,
  fas_set (fas_of (pdmp_of m)) v = (fs, Ok rest) /\
  exists m', m_set_params m v = (m', Ok tt) /\
   (mem "goal" (m_sel m) = false -> m' = upd_fas m (option_map (fun _ => fs) (m_fas m))) /\
   (mem "goal" (m_sel m) = true -> length (firstn (m_dim m) rest) = m_dim m /\ exists g, goal_attr m (firstn (m_dim m) rest) = Ok g /\
      m' = upd_attr (upd_fas m (option_map (fun _ => fs) (m_fas m))) (firstn (m_dim m) rest) g).
Proof.
  intros Hv. destruct Hsel as [F L]. destruct (fas_get_size _ F) as (w & Gw & Sw).
  pose proof Hv as Hv'. unfold dmp_size in Hv. rewrite Sw in Hv. cbn [bind] in Hv. injection Hv as Hv.
  destruct (fas_set_ok _ v (length w) F Sw) as (fs' & E & G & S' & F' & M); [lia|].
  exists fs', (skipn (length w) v). split; [exact E|].
  unfold m_set_params, dmp_set.
  rewrite Hv', Nat.eqb_refl, E. cbn [p_fas p_sel p_attr p_dim pdmp_of] in *.
  destruct (mem "goal" (m_sel m)) eqn:Mg.
  - unfold set_attr. cbn [p_dim p_fas p_sel p_attr].
    assert (Hl : length (firstn (m_dim m) (skipn (length w) v)) = m_dim m) by (rewrite firstn_length, skipn_length; lia).
    rewrite Hl, Nat.eqb_refl. cbn [p_attr p_fas]. set (y := firstn (m_dim m) (skipn (length w) v)) in *.
    assert (Eg : exists g, goal_attr m y = Ok g).
    { unfold goal_attr. destruct (m_goal m) as [[e|s|h|h]|]; cbn; try destruct (m_req m); try (eexists; reflexivity).
      rewrite Hl, Hgoal, Nat.eqb_refl. cbn. eexists; reflexivity. }
    destruct Eg as [g Eg]. change (goal_attr (upd_fas m (option_map (fun _ => fs') (m_fas m))) y) with (goal_attr m y). rewrite Eg.
    eexists. split; [reflexivity|]. split; [discriminate|]. intros _. split; [reflexivity|]. exists g. now split.
  - eexists. split; [reflexivity|]. split; [reflexivity|discriminate].
Qed.
End M.

(** DMPs that differ in what a parameter vector sets *)
Definition reach (m m' : dmp) : Prop := m' = m \/ exists v, dmp_size (pdmp_of m) = Ok (length v) /\ m' = fst (m_set_params m v).

Lemma goal_attr_twice m a g y fs : goal_attr m a = Ok g -> length a = length y ->
  goal_attr (upd_attr (upd_fas m fs) a g) y = goal_attr m y.
Proof.
  intros H Hl. unfold goal_attr, upd_attr, upd_fas in *. cbn. destruct (m_goal m) as [s|]; [|injection H as <-; reflexivity].
  destruct (m_req m); [injection H as <-; reflexivity|].
  destruct s as [e|s|h|h]; cbn in H; try (injection H as <-; reflexivity).
  cbn. destruct (Nat.eqb (length a) (length (e_init e))) eqn:E; [|discriminate]. cbn in H. injection H as <-. cbn.
  rewrite <- Hl, E. reflexivity.
Qed.

Section H.
Variable m : dmp.
Hypothesis Hsel : selectable_dmp (pdmp_of m).
Hypothesis Hgoal : match m_goal m with Some (SubE e) => length (e_init e) = m_dim m | _ => True end.

Lemma reach_size m' : reach m m' -> dmp_size (pdmp_of m') = dmp_size (pdmp_of m) /\ selectable_dmp (pdmp_of m') /\
  (match m_goal m' with Some (SubE e) => length (e_init e) = m_dim m' | _ => True end).
Proof.
  intros [->|(v & Hv & ->)]; [split; [reflexivity|split; assumption]|].
  destruct (set_params_ok m Hsel Hgoal v Hv) as (fs & rest & E & m' & Em & H1 & H2). rewrite Em. cbn [fst].
  destruct (dmp_set_ok _ v Hsel Hv) as (p' & Ep & _ & Sp & Hp & _ & Es & Ed & Ea).
  assert (Hpd : pdmp_of m' = p').
  { unfold dmp_set in Ep. rewrite Hv, Nat.eqb_refl, E in Ep. cbn [p_fas p_sel p_attr p_dim pdmp_of] in Ep.
    destruct (mem "goal" (m_sel m)).
    - destruct (H2 eq_refl) as (Hl & g & Eg & ->). unfold set_attr in Ep. cbn [p_dim p_fas p_sel] in Ep.
      rewrite Hl, Nat.eqb_refl in Ep. injection Ep as <-. reflexivity.
    - rewrite (H1 eq_refl). injection Ep as <-. reflexivity. }
  rewrite Hpd, Sp, Hv. split; [reflexivity|]. split; [exact Hp|].
  destruct (mem "goal" (m_sel m)).
  - destruct (H2 eq_refl) as (Hl & g & Eg & ->). cbn. unfold goal_attr in Eg.
    destruct (m_goal m) as [[e|s|h|h]|]; cbn in Eg; try (destruct (m_req m); injection Eg as <-; trivial).
    destruct (m_req m); [injection Eg as <-; trivial|]. destruct (Nat.eqb _ _); [|discriminate]. injection Eg as <-. exact Hgoal.
  - rewrite (H1 eq_refl). exact Hgoal.
Qed.
Lemma reach_set m' v : reach m m' -> dmp_size (pdmp_of m) = Ok (length v) -> m_set_params m' v = m_set_params m v.
Proof.
  intros [->|(u & Hu & ->)] Hv; [reflexivity|].
  destruct (set_params_ok m Hsel Hgoal u Hu) as (fs & rest & E & m' & Em & H1 & H2).
  assert (R : reach m m') by (right; exists u; rewrite Em; now split).
  destruct (reach_size m' R) as (Sz & Hsel' & Hgoal'). rewrite Em. cbn [fst]. rewrite Hv in Sz.
  destruct (set_params_ok m Hsel Hgoal v Hv) as (fs1 & rest1 & E1 & m1 & Em1 & A1 & A2).
  destruct (set_params_ok m' Hsel' Hgoal' v Sz) as (fs2 & rest2 & E2 & m2 & Em2 & B1 & B2).
  rewrite Em1, Em2.
  assert (Hfs : (fs2, Ok rest2) = (fs1, Ok rest1)).
  { rewrite <- E1, <- E2. destruct Hsel as [F _]. destruct (fas_get_size _ F) as (w & _ & Sw).
    pose proof Hu as Hu'. unfold dmp_size in Hu'. rewrite Sw in Hu'. cbn [bind] in Hu'. injection Hu' as Hu'.
    pose proof Hv as Hv'. unfold dmp_size in Hv'. rewrite Sw in Hv'. cbn [bind] in Hv'. injection Hv' as Hv'.
    rewrite <- (fas_twice _ u v (length w) F Sw ltac:(lia) ltac:(lia)). rewrite E. cbn [fst]. f_equal.
    assert (Efs : m_fas m' = option_map (fun _ => fs) (m_fas m)).
    { destruct (mem "goal" (m_sel m)); [destruct (H2 eq_refl) as (_ & g & _ & ->)|rewrite (H1 eq_refl)]; reflexivity. }
    unfold fas_of, pdmp_of. cbn [p_fas]. rewrite Efs. unfold fas_of, pdmp_of in E. cbn [p_fas] in E. destruct (m_fas m); cbn; [reflexivity|].
    cbn in E. now injection E as <-. }
  injection Hfs as -> ->. f_equal.
  assert (Hs : m_sel m' = m_sel m).
  { destruct (mem "goal" (m_sel m)); [destruct (H2 eq_refl) as (_ & g & _ & ->)|rewrite (H1 eq_refl)]; reflexivity. }
  rewrite Hs in B1, B2. destruct (mem "goal" (m_sel m)) eqn:Mg.
  - destruct (H2 eq_refl) as (Hl & g & Eg & Hm'). destruct (A2 eq_refl) as (Hl1 & g1 & Eg1 & ->).
    destruct (B2 eq_refl) as (Hl2 & g2 & Eg2 & ->).
    assert (Hd : m_dim m' = m_dim m) by (rewrite Hm'; reflexivity).
    rewrite Hd in *. assert (Egg : goal_attr m' (firstn (m_dim m) rest1) = goal_attr m (firstn (m_dim m) rest1)).
    { rewrite Hm'. apply goal_attr_twice; [exact Eg|]. congruence. }
    rewrite Egg, Eg1 in Eg2. injection Eg2 as <-. rewrite Hm'. unfold upd_attr, upd_fas. cbn. now destruct (m_fas m).
  - rewrite (A1 eq_refl), (B1 eq_refl), (H1 eq_refl). unfold upd_fas. cbn. now destruct (m_fas m).
Qed.
Lemma upd_fas_same n : upd_fas n (m_fas n) = n.
Proof. now destruct n. Qed.

(** the histories *)
Lemma reach_step m' v : reach m m' -> reach m (fst (m_set_params m' v)).
Proof.
  intros R. destruct (reach_size m' R) as (Sz & Hsel' & Hgoal').
  destruct (dmp_get_size _ Hsel) as (w & _ & Sw).
  destruct (Nat.eq_dec (length w) (length v)) as [E|E].
  - right. exists v. rewrite <- E. split; [exact Sw|]. rewrite reach_set; trivial. now rewrite <- E.
  - rewrite (set_params_wrong m' Hsel') by (rewrite Sz; congruence). cbn [fst]. now rewrite upd_fas_same.
Qed.

Variable pf : nat -> list (string * pval) -> R -> res R.
Lemma rollouts_reach hs : forall s, reach m (o_dmp s) -> reach m (o_dmp (rollouts pf s hs)) /\
  o_time (rollouts pf s hs) = o_time s /\ o_n (rollouts pf s hs) = o_n s.
Proof.
  induction hs as [|v hs IH]; intros s R; cbn [rollouts]; [now repeat split|].
  pose proof (reach_step _ v R) as R'. unfold rollout. destruct (m_set_params (o_dmp s) v) as [m' [u|e]] eqn:E; cbn [fst] in *;
  destruct (IH (Solver m' (o_time s) (o_n s)) R') as (A & B & C); cbn in *; now repeat split.
Qed.
Lemma history_free s hs x : o_dmp s = m -> snd (rollout pf (rollouts pf s hs) x) = snd (rollout pf s x).
Proof.
  intros Es. destruct (rollouts_reach hs s ltac:(left; exact Es)) as (R & Et & En).
  destruct (dmp_get_size _ Hsel) as (w & _ & Sw). destruct (reach_size _ R) as (Sz & Hsel' & Hgoal').
  destruct (Nat.eq_dec (length w) (length x)) as [E|E].
  - unfold rollout. rewrite (reach_set _ x R) by now rewrite <- E. rewrite Es, Et, En. reflexivity.
  - unfold rollout. rewrite (set_params_wrong _ Hsel') by (rewrite Sz; congruence).
    rewrite Es, (set_params_wrong _ Hsel) by congruence. reflexivity.
Qed.
End H.
