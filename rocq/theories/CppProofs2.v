(** Proofs about the C++ counterpart: the subsystems, and reading a DMP. *)
From Coq Require Import String.
From Verif Require Import Base BaseLemmas DynModel DynSpec DynProofs ParamModel FaModel TrajModel DmpModel DmpSpec DmpProofs DmpProofs2 CppModel CppSpec CppProofs.
Open Scope string_scope.
Open Scope R_scope.

Definition scal (p : param) : R := match p with PScal r => r | PVec _ => 0 end.
Definition cexp_of (e : esys) : cexp := Cexp (e_tau e) (e_init e) (e_attr e) (scal (e_alpha e)).
Definition csub_of (s : sub) : csub :=
  match s with
  | SubE e => CE (cexp_of e)
  | SubS g => CS (new_csig (g_tau g) (g_init g) (scal (g_rate g)) (scal (g_infl g)))
  | SubR h => CT (Ctime (h_tau h) true)
  | SubT t => CT (Ctime (t_tau t) (t_down t))
  end.
Definition cfa_of (k : fa_kind) (f : fa) : option cfa :=
  match load_fa (fa_json k f) with Ok o => o | Err _ => None end.
Definition img (kinds : nat -> fa_kind) (m : dmp) : cdmp :=
  let y0 := opt (m_y0 m) [] in
  Cdmp (m_tau m) y0 (m_attr m) (new_cspring (m_tau m) y0 (scal (d_damp (m_spring m))))
       (match m_goal m with Some (SubE e) => Some (cexp_of e) | _ => None end)
       (Some (csub_of (m_phase m))) (Some (csub_of (m_gating m))) (scaling_name (m_scaling m)) (opt (m_amps m) [])
       (map (fun i => cfa_of (kinds i) (nth i (fas_of (pdmp_of m)) (new_fa []))) (seq 0 (m_dim m))).

Lemma load_exp_ok e a : e_alpha e = PScal a -> load_exp (sub_json (SubE e)) = Ok (cexp_of e).
Proof.
  intros Ea. unfold load_exp, cexp_of. rewrite Ea.
  change (jat (sub_json (SubE e)) "_tau") with (Ok (JNum (e_tau e))).
  change (jat (sub_json (SubE e)) "alpha") with (Ok (param_json (e_alpha e))).
  change (jat (sub_json (SubE e)) "_x_init") with (Ok (vec_json (e_init e))).
  change (jat (sub_json (SubE e)) "_x_attr") with (Ok (vec_json (e_attr e))).
  cbn [bind jnum]. rewrite Ea. cbn [param_json bind jnum]. rewrite !jvec_vec. reflexivity.
Qed.
Lemma load_sub_ok s : sub_portable s -> load_sub (sub_json s) = Ok (Some (csub_of s)).
Proof.
  intros H. destruct s as [e|g|h|t]; cbn [sub_portable] in H; [| |contradiction|].
  - destruct H as (_ & a & Ea). unfold load_sub. change (jat (sub_json (SubE e)) "class") with (Ok (JStr "ExponentialSystem")).
    cbn [bind jstr String.eqb Ascii.eqb Bool.eqb]. now rewrite (load_exp_ok e a).
  - destruct H as (r & q & Er & Eq). unfold load_sub. change (jat (sub_json (SubS g)) "class") with (Ok (JStr "SigmoidSystem")).
    cbn [bind jstr String.eqb Ascii.eqb Bool.eqb]. unfold load_sig.
    change (jat (sub_json (SubS g)) "_tau") with (Ok (JNum (g_tau g))).
    change (jat (sub_json (SubS g)) "_max_rate") with (Ok (param_json (g_rate g))).
    change (jat (sub_json (SubS g)) "_inflection_ratio") with (Ok (param_json (g_infl g))).
    change (jat (sub_json (SubS g)) "_x_init") with (Ok (vec_json (g_init g))).
    cbn [csub_of bind]. rewrite Er, Eq. cbn [param_json bind jnum scal]. rewrite jvec_vec. reflexivity.
  - unfold load_sub. change (jat (sub_json (SubT t)) "class") with (Ok (JStr "TimeSystem")).
    cbn [bind jstr String.eqb Ascii.eqb Bool.eqb]. unfold load_time.
    change (jat (sub_json (SubT t)) "_tau") with (Ok (JNum (t_tau t))).
    change (jat (sub_json (SubT t)) "_count_down") with (Ok (JBool (t_down t))).
    reflexivity.
Qed.

Lemma transfer_ok kinds m : portable kinds m -> transfer kinds m = Ok (img kinds m).
Proof.
  intros (Ha & Hr & Hd & (y0 & Ey & Ly & Ei & t & a & al & Eg & La) & Hdim & Htau & (d & Ed & Ek) & Em & Hp & Hga & Ham & fs & Ef & Lf & Hf).
  unfold transfer, load_dmp.
  change (jat (dmp_json kinds m) "_tau") with (Ok (JNum (m_tau m))).
  change (jat (dmp_json kinds m) "_spring_system") with (Ok (spring_json (m_spring m))).
  cbn [bind jnum].
  change (jat (spring_json (m_spring m)) "damping_coefficient") with (Ok (param_json (d_damp (m_spring m)))).
  assert (Jy : jat (dmp_json kinds m) "_y_init" = Ok (vec_json y0)).
  { unfold dmp_json. rewrite Ey. reflexivity. }
  rewrite Jy.
  change (jat (dmp_json kinds m) "_y_attr") with (Ok (vec_json (m_attr m))).
  change (jat (dmp_json kinds m) "_goal_system") with (Ok (opt_json sub_json (m_goal m))).
  change (jat (dmp_json kinds m) "_phase_system") with (Ok (sub_json (m_phase m))).
  change (jat (dmp_json kinds m) "_gating_system") with (Ok (sub_json (m_gating m))).
  change (jat (dmp_json kinds m) "_forcing_term_scaling") with (Ok (JStr (scaling_name (m_scaling m)))).
  change (jat (dmp_json kinds m) "_scaling_amplitudes") with (Ok (opt_json vec_json (m_amps m))).
  change (jat (dmp_json kinds m) "_function_approximators") with
    (Ok (opt_json (fun fs => JArr (map (fun p => fa_json (kinds (fst p)) (snd p)) (combine (seq 0 (length fs)) fs))) (m_fas m))).
  clear Jy. rewrite Ed, Eg, Ef. cbn [bind jnum param_json opt_json jstr]. rewrite !jvec_vec. cbn [bind].
  rewrite (load_exp_ok _ al) by reflexivity. cbn [bind].
  rewrite !load_sub_ok by trivial. cbn [bind].
  assert (Ja : jvec (opt_json vec_json (m_amps m)) = Ok (opt (m_amps m) [])).
  { destruct (m_amps m); cbn [opt_json opt]; [apply jvec_vec|reflexivity]. }
  rewrite Ja. cbn [bind]. rewrite Ha.
  rewrite (mapM_pure _ (fun i => cfa_of (kinds i) (nth i fs (new_fa [])))).
  2:{ intros i Hi. apply in_seq in Hi. unfold jat_index. rewrite nth_error_map.
      assert (E : nth_error (combine (seq 0 (length fs)) fs) i = Some (i, nth i fs (new_fa []))).
      { rewrite (nth_error_nth' _ (0%nat, new_fa [])) by (rewrite combine_length, seq_length; lia).
        rewrite combine_nth by apply seq_length. now rewrite seq_nth by lia. }
      rewrite E. cbn [option_map bind fst snd]. unfold cfa_of.
      destruct (fa_same exp kinds i (nth i fs (new_fa []))) as (cf & L & _).
      { apply Hf; [|lia]. apply nth_error_nth'. lia. }
      now rewrite L. }
  cbn [bind]. unfold new_cdmp. cbn [bind]. unfold exp_set_init, cexp_of at 1. cbn [e_tau e_init e_attr e_alpha scal ce_init ce_tau ce_attr ce_alpha].
  rewrite Nat.eqb_refl. cbn [bind].
  assert (Es : (String.eqb (scaling_name (m_scaling m)) "AMPLITUDE_SCALING" && negb (Nat.eqb (length (opt (m_amps m) [])) (length y0)))%bool = false).
  { destruct (m_scaling m); [reflexivity|reflexivity|]. destruct (Ham eq_refl) as (am & Eam & Lam). rewrite Eam. cbn [opt]. now rewrite Lam, Ly, Nat.eqb_refl. }
  rewrite Es.
  rewrite map_length, seq_length, Ly, Nat.eqb_refl. cbn [negb]. rewrite Bool.andb_false_r.
  unfold img. rewrite Ey, Eg, Ed. unfold fas_of, pdmp_of. cbn [p_fas opt scal]. rewrite Ef. reflexivity.
Qed.

(** ** rates of change *)
Lemma map_map2 {A B C D} (f : C -> D) (g : A -> B -> C) : forall a b, map f (map2 g a b) = map2 (fun x y => f (g x y)) a b.
Proof. induction a as [|x a IH]; intros [|y b]; cbn; trivial. now rewrite IH. Qed.
Lemma ceq_ok f a b : length a = length b -> ceq f a b = Ok (map2 f a b).
Proof. intros H. unfold ceq. now rewrite H, Nat.eqb_refl. Qed.
Lemma exp_same_rate e a x : e_tau e <> 0 -> e_alpha e = PScal a -> length (e_attr e) = length x ->
  exists l, e_diffeq e x = Ok l /\ exp_diffeq (cexp_of e) x = Ok l /\ length l = length x.
Proof.
  intros Ht Ea L. exists (map2 (fun xa v => a * (xa - v) / e_tau e) (e_attr e) x). repeat split.
  - unfold e_diffeq. rewrite vop_same by trivial. cbn [bind]. rewrite Ea. cbn [pop bind]. rewrite vdiv_ok by trivial.
    now rewrite !map_map2.
  - unfold exp_diffeq, cexp_of. cbn [ce_tau ce_attr ce_alpha]. destruct (Req_EM_T (e_tau e) 0); [contradiction|].
    rewrite ceq_ok by trivial. rewrite Ea. reflexivity.
  - rewrite map2_length, L. apply Nat.min_id.
Qed.
Lemma ks_same g r q : g_rate g = PScal r -> g_infl g = PScal q ->
  s_ks g = Ok (compute_ks (g_init g) r (q * g_tau g)).
Proof.
  intros Er Eq. unfold s_ks, compute_ks.
  rewrite (map_seq_of _ (g_init g) (length (g_init g))) by reflexivity.
  apply mapM_pure. intros i Hi. apply in_seq in Hi. rewrite Er, Eq. cbn [par_at bind].
  rewrite (nth_res_ok _ _ 0) by lia. cbn [bind]. now rewrite (Rmult_comm (g_tau g)).
Qed.
Lemma sub_same_rate s x : sub_ok s -> sub_portable s -> length x = sub_dim s ->
  exists l, sub_diffeq s x = Ok l /\ csub_diffeq (csub_of s) x = Ok l /\ length l = sub_dim s.
Proof.
  intros [Ht Hs] Hp Hx. unfold sub_dim in *. destruct s as [e|g|h|t]; cbn [sub_portable sub_init sub_diffeq csub_of csub_diffeq sub_tau] in *; [| |contradiction|].
  - destruct Hp as (La & a & Ea). destruct (exp_same_rate e a x) as (l & A & B & C); trivial; [lia|].
    exists l. repeat split; trivial; lia.
  - destruct Hp as (r & q & Er & Eq). destruct Hs as (_ & _ & Hn).
    set (ks := compute_ks (g_init g) r (q * g_tau g)).
    assert (Lk : length ks = length (g_init g)) by apply map_length.
    assert (Z : existsb (fun k => if Req_EM_T k 0 then true else false) ks = false).
    { apply Bool.not_true_iff_false. intros H. apply existsb_exists in H. destruct H as (k & Hk & E).
      destruct (Req_EM_T k 0) as [E'|]; [|discriminate]. apply in_map_iff in Hk. destruct Hk as (n0 & <- & Hin).
      apply (In_nth _ _ 0) in Hin. destruct Hin as (i & Hi & <-). pose proof (exp_pos (- r * (q * g_tau g))) as Q.
      apply Rmult_integral in E'. destruct E' as [E'|E']; [now apply (Hn i)|].
      assert (0 < 1 / exp (- r * (q * g_tau g))) by (unfold Rdiv; rewrite Rmult_1_l; now apply Rinv_0_lt_compat). lra. }
    exists (map2 (fun v k => r * v * (1 - v / k)) x ks). repeat split.
    + unfold s_diffeq. rewrite (ks_same g r q) by trivial. cbn [bind]. fold ks. unfold s_diffeq_k. rewrite Z.
      rewrite vop_same by lia. cbn [bind]. rewrite Er. cbn [pop bind]. rewrite vop_same.
      2:{ rewrite !map_length, map2_length. lia. }
      f_equal. assert (Lx : length x = length ks) by lia. clear - Lx. revert Lx. generalize ks. induction x as [|v x IH]; intros [|k ks'] L; cbn in *; trivial; try lia.
      f_equal. apply IH. lia.
    + unfold sig_diffeq. cbn [cg_ks new_csig cg_rate]. rewrite Er, Eq. cbn [scal]. fold ks. rewrite Z. rewrite ceq_ok by lia. reflexivity.
    + rewrite map2_length. lia.
  - rewrite Hp in Hx. cbn in Hx. destruct x as [|v [|? ?]]; cbn in Hx; try lia. rewrite Hp. cbn [length].
    unfold t_diffeq, time_diffeq. cbn [ct_down ct_tau]. destruct (Req_EM_T (t_tau t) 0); [contradiction|].
    destruct (t_down t); [destruct (Rlt_dec 0 v)|destruct (Rlt_dec v 1)]; eexists; repeat split.
Qed.

(** ** closed forms *)
Lemma in_order_cons t ts : in_order (t :: ts) -> in_order ts /\ Forall (fun u => t <= u) ts.
Proof.
  intros H. split.
  - intros i j Hij. apply (H (S i) (S j)). cbn. lia.
  - apply Forall_forall. intros u Hu. apply (In_nth _ _ 0) in Hu. destruct Hu as (i & Hi & <-). apply (H 0%nat (S i)). cbn. lia.
Qed.
Lemma stop_rows {A} (g h : R -> A) tau : forall ts, in_order ts ->
  map (fun t => if Rlt_dec tau t then h t else g t) ts =
  (map g (firstn (stop_index tau ts) ts) ++ map h (skipn (stop_index tau ts) ts))%list.
Proof.
  induction ts as [|t ts IH]; intros H; [reflexivity|]. apply in_order_cons in H. destruct H as [H F]. cbn [map stop_index].
  destruct (Rlt_dec tau t) as [L|L].
  - cbn [firstn skipn map app]. f_equal. clear IH H. induction F as [|u ts Hu F IH]; [reflexivity|]. cbn [map].
    destruct (Rlt_dec tau u); [|lra]. now rewrite IH.
  - cbn [firstn skipn map app]. now rewrite IH.
Qed.
Lemma sub_same_ana s ts : sub_ok s -> sub_portable s -> 0 < sub_tau s -> in_order ts ->
  csub_ana (csub_of s) ts = sub_ana s ts.
Proof.
  intros [Ht Hs] Hp Hpos Ho. destruct s as [e|g|h|t]; cbn [sub_portable sub_ana csub_of csub_ana sub_tau] in *; [| |contradiction|].
  - destruct Hp as (La & a & Ea). unfold exp_ana, e_ana, cexp_of. cbn [ce_tau ce_init ce_attr ce_alpha].
    rewrite (mapM_pure _ (fun i => (a, nth i (e_init e) 0, nth i (e_attr e) 0))).
    2:{ intros i Hi. apply in_seq in Hi. rewrite Ea. cbn [par_at bind]. rewrite !(nth_res_ok _ _ 0) by lia. reflexivity. }
    cbn [bind]. destruct (Req_EM_T (e_tau e) 0); [contradiction|]. rewrite ceq_ok by lia. cbn [bind]. rewrite Ea. cbn [scal].
    f_equal. f_equal; apply map_ext; intros t.
    + rewrite map_map. rewrite (map2_seq _ (e_init e) (e_attr e) (length (e_init e))) by lia.
      rewrite (map2_seq _ _ (e_attr e) (length (e_init e))) by (rewrite ?map_length, ?seq_length; lia).
      apply map_ext_in. intros i Hi. apply in_seq in Hi. now rewrite nth_map_seq by lia.
    + rewrite map_map. rewrite (map2_seq _ (e_init e) (e_attr e) (length (e_init e))) by lia. rewrite map_map.
      apply map_ext. intros i. ring.
  - destruct Hp as (r & q & Er & Eq). destruct Hs as (_ & _ & Hn). unfold sig_ana, s_ana. cbn [cg_init cg_ks cg_rate new_csig].
    rewrite (ks_same g r q) by trivial. cbn [bind]. rewrite Er, Eq. cbn [scal]. set (ks := compute_ks (g_init g) r (q * g_tau g)).
    assert (Lk : length ks = length (g_init g)) by apply map_length.
    assert (Z : existsb (fun k => if Req_EM_T k 0 then true else false) (g_init g) = false).
    { apply Bool.not_true_iff_false. intros H. apply existsb_exists in H. destruct H as (k & Hk & E).
      destruct (Req_EM_T k 0) as [E'|]; [|discriminate]. apply (In_nth _ _ 0) in Hk. destruct Hk as (i & Hi & Ei). apply (Hn i); [trivial|]. congruence. }
    rewrite Z. rewrite ceq_ok by lia. cbn [bind]. unfold s_ana_k.
    rewrite (mapM_pure _ (fun i => (r, nth i ks 0, nth i ks 0 / nth i (g_init g) 0 - 1))).
    2:{ intros i Hi. apply in_seq in Hi. rewrite Er. cbn [par_at bind]. rewrite !(nth_res_ok _ _ 0) by lia. cbn [bind].
        destruct (Req_EM_T (nth i (g_init g) 0) 0) as [E|]; [|reflexivity]. exfalso. apply (Hn i); [lia|trivial]. }
    cbn [bind]. f_equal. rewrite (map2_seq _ ks (g_init g) (length (g_init g))) by lia.
    f_equal; apply map_ext; intros t; rewrite map_map;
    rewrite (map2_seq _ ks _ (length (g_init g))) by (rewrite ?map_length, ?seq_length; lia);
    apply map_ext_in; intros i Hi; apply in_seq in Hi; rewrite nth_map_seq by lia; reflexivity.
  - unfold time_ana, t_ana. cbn [ct_tau ct_down]. destruct (Req_EM_T (t_tau t) 0); [contradiction|]. f_equal.
    set (tau := t_tau t) in *.
    assert (O1 : forall u, (if Rlt_dec (1 - u / tau) 0 then true else false) = if Rlt_dec tau u then true else false).
    { intros u. destruct (Rlt_dec (1 - u / tau) 0) as [A|A], (Rlt_dec tau u) as [B|B]; trivial; exfalso.
      - apply B. assert (1 < u / tau) by lra. apply (Rmult_lt_compat_r tau) in H; [|trivial]. replace (u / tau * tau) with u in H by (field; lra). lra.
      - apply A. assert (tau / tau < u / tau) by (apply Rmult_lt_compat_r; [now apply Rinv_0_lt_compat|trivial]). replace (tau / tau) with 1 in H by (field; lra). lra. }
    assert (O2 : forall u, (if Rlt_dec 1 (u / tau) then true else false) = if Rlt_dec tau u then true else false).
    { intros u. rewrite <- O1. destruct (Rlt_dec 1 (u / tau)), (Rlt_dec (1 - u / tau) 0); trivial; lra. }
    f_equal.
    + rewrite <- (stop_rows (fun t0 => [if t_down t then - t0 / tau + 1 else t0 / tau]) (fun _ => [if t_down t then 0 else 1])) by trivial.
      apply map_ext. intros u. destruct (t_down t); rewrite ?O1, ?O2; destruct (Rlt_dec tau u); trivial. f_equal. field. lra.
    + rewrite <- (stop_rows (fun _ => [(if t_down t then -1 else 1) / tau]) (fun _ => [0])) by trivial.
      apply map_ext. intros u. destruct (t_down t); rewrite ?O1, ?O2; destruct (Rlt_dec tau u); trivial.
Qed.
