(** A concrete contextual DMP: two demonstrations with the same duration, start and end, and Gaussian
    processes as policy parameter functions. *)
From Coq Require Import String.
From Verif Require Import Base BaseLemmas DynModel DynSpec ParamModel ParamSpec ParamProofs TrajModel DmpModel DmpSpec DmpProofs DmpProofs5 DmpProofs6 DmpProofs7 DmpProofs8 DmpProofs9 DmpProofs11 DmpProofs14 DmpProofs12 DmpProofs13 DmpProofs16 DmpProofs17 DmpProofs18 DmpExamples FaModel FaSpec FaProperties ContextModel ContextSpec ContextProofs ContextProofs2 ContextProofs3 ContextProofs4.
Open Scope R_scope.

Definition ex_demo2 : traj :=
  Traj [0; 1; 2; 3] (Some 1) 1 (Mat 1 [[0]; [1]; [2]; [3]]) (Mat 1 [[1]; [1]; [1]; [1]]) (Mat 1 [[0]; [0]; [0]; [0]]) None.
Definition ex_data : list (list R * traj) := [([0; 5], ex_demo); ([1; 5], ex_demo2)].
Definition ex_names : names := NList ["weights"%string].
Definition ex_dmp_at (y : R) (fs : list fa) : dmp :=
  Dmp 2 1 [y; 0; 0; 0; 0; 0] None [7] (Some fs) [] (Dsys 2 [y; 0] [7] (PScal 20) (PScal (20 * 20 / 4)) (PScal 1) 1) None
      (SubE (Esys 2 [1] [0] (PScal 4))) (SubE (Esys 2 [1] [0] (PScal 4))) None false NoScaling None None.
Definition ex_ctx_at (y : R) : ctx := Ctx (ex_dmp_at y [ex_fa]) None 2.
Definition ex_ctx : ctx := ex_ctx_at 0.
Definition ex_ppf_predict : nat -> list (string * pval) -> mat -> res (list R) := fun _ => gpr_predict exp.
Definition ex_ppf_train : nat -> mat -> list R -> res (list (string * pval)) := fun _ x ys => gpr_train exp 2 [1; 3] (In1 ys) x.
Definition ex_ppf : ppf_arg := POne (new_fa ["inputs"; "lengths"; "max_covariance"; "gram_inv_targets"]%string).

Lemma ex_ctx_new : new_ctx Ijspeert 2 [0] [7] (Some [ex_fa]) no_kw = Ok ex_ctx.
Proof. reflexivity. Qed.
Lemma ex_alike : alike ex_data 3 [0] [3].
Proof. repeat constructor. Qed.
Lemma ex_dmp_sound sy fs : fs <> [] -> sound ex_pf (ex_dmp_at sy fs) /\ synced (ex_dmp_at sy fs) /\ plain_goal (ex_dmp_at sy fs) /\ goal_accepts (ex_dmp_at sy fs) [0].
Proof.
  intros N. destruct (new_dmp_ok ex_pf Ijspeert 2 [sy] [7] (Some fs) no_kw ltac:(lra) eq_refl) as (m & E & S & Sy & Pl & Ed & Et & _ & _ & Ef & Er & Es & _ & _ & _ & _ & _ & Hg).
  { repeat split. } { exact I. } { split; [right; cbn; destruct fs; [congruence|cbn; lia]|]. intros; unfold ex_pf; eauto. }
  assert (Em : m = ex_dmp_at sy fs) by (cbn in E; injection E as <-; reflexivity). rewrite Em in *.
  split; [exact S|]. split; [exact Sy|]. split; [exact Pl|]. apply Hg; [reflexivity|exact I].
Qed.
Lemma ex_copy sy t : In t (map snd ex_data) -> exists mk vk, train_copy ex_pf ex_tf (m_select (ex_dmp_at sy [ex_fa]) ex_names) t = Ok (mk, vk) /\
  length vk = 2%nat /\ exists ys, fas_of (pdmp_of mk) = [Fa [("weights"%string, PArr (Arr [2%nat] [nth 0 ys 0; nth 1 ys 0]))] (Some 1%nat) (Some ["weights"%string])].
Proof.
  intros Ht. assert (Dm : demo 1 t /\ last (tj_ts t) 0 = 3).
  { destruct Ht as [<-|[<-|[]]]; (split; [repeat split; repeat constructor|reflexivity]). }
  destruct Dm as [Dm Lt].
  change (m_select (ex_dmp_at sy [ex_fa]) ex_names) with (ex_dmp_at sy [fa_select ex_fa ex_names]).
  destruct (ex_dmp_sound sy [fa_select ex_fa ex_names] ltac:(discriminate)) as (S & Sy & Pl & Hg).
  destruct (train_total ex_pf ex_tf (ex_dmp_at sy [fa_select ex_fa ex_names]) t) as [m' E']; trivial.
  - intros i phs ys ps H ph. unfold ex_pf. eauto.
  - intros. unfold ex_tf. eauto.
  - destruct Ht as [<-|[<-|[]]]; discriminate.
  - rewrite Lt. lra.
  - intros fs H. injection H as <-. cbn. lia.
  - intros c ts xs xds k Hc Ex Hk. cbn [m_gating ex_dmp_at sub_set_tau e_init e_attr e_alpha] in Ex.
    destruct (exp_gating c 4 Hc ts) as (xs' & xds' & E' & H). rewrite E' in Ex. injection Ex as <- <-. rewrite H by trivial.
    pose proof (exp_pos (- (4) * nth k ts 0 / c)). lra.
  - destruct (train_split _ _ _ _ _ E') as (m3 & amps & fas' & _ & _ & E3 & Em & Hf). cbn [ex_dmp_at m_fas] in Hf.
    destruct Hf as (phs & tg & trained & Lt' & -> & _ & Hi). destruct (Hi 0%nat (fa_select ex_fa ex_names) ltac:(cbn; lia) eq_refl) as (ps & Eps & Etr).
    unfold ex_tf in Eps. injection Eps as <-. cbn in Lt'. destruct trained as [|f [|]]; try discriminate. cbn in Etr. injection Etr as ->.
    cbn [app skipn m_dim ex_dmp_at] in Em.
    exists m', [nth 0 (col 0 tg) 0; nth 1 (col 0 tg) 0]. unfold train_copy. rewrite E'. cbn [bind].
    assert (Ef : fas_of (pdmp_of m') = [Fa [("weights"%string, PArr (Arr [2%nat] [nth 0 (col 0 tg) 0; nth 1 (col 0 tg) 0]))] (Some 1%nat) (Some ["weights"%string])]).
    { unfold fas_of, pdmp_of. cbn [p_fas]. rewrite Em. reflexivity. }
    split; [|split; [reflexivity|eexists; exact Ef]].
    assert (Esel : m_sel m' = []) by (destruct (train_frame _ _ _ _ _ E') as (_ & _ & _ & _ & _ & _ & A & _); exact A).
    unfold m_get_params, dmp_get. rewrite Ef. cbn [pdmp_of p_sel]. rewrite Esel. reflexivity.
Qed.
Lemma ex_yields : yields ex_tf (fa_names ex_names).
Proof.
  split; [repeat constructor; intros []|]. intros i phs ys ps E n [<-|[]]. unfold ex_tf in E. injection E as <-.
  eexists. split; [reflexivity|]. split; [discriminate|reflexivity].
Qed.
Lemma ex_differ : differ_in_selection ex_pf ex_tf (m_select (c_dmp ex_ctx) ex_names) ex_data.
Proof.
  intros q q' t t' mk mk' vk vk' I I' E E'.
  destruct (ex_copy 0 t) as (n & w & En & _ & ys & Ef). { apply in_map_iff. now exists (q, t). }
  destruct (ex_copy 0 t') as (n' & w' & En' & _ & ys' & Ef'). { apply in_map_iff. now exists (q', t'). }
  cbn [c_dmp ex_ctx ex_ctx_at] in E, E'. assert (n = mk) by congruence. assert (n' = mk') by congruence. subst n n'. rewrite Ef, Ef'.
  split; [|repeat constructor; intros []].
  constructor; [|constructor]. split; [|discriminate]. repeat split.
  - intros m Hm. cbn in *. destruct (String.eqb_spec m "weights"); [subst; tauto|reflexivity].
  - intros m. cbn. destruct (String.eqb m "weights"); [|reflexivity]. eexists. split; reflexivity.
Qed.
Lemma ex_interpolates : interpolates ex_ppf_predict ex_ppf_train (map fst ex_data).
Proof. apply (gpr_interpolates 2 [1; 3]); [discriminate|repeat constructor|repeat constructor; lra]. Qed.
Lemma ex_gpr_trains f ys : length ys = 2%nat -> exists f', train f (fun x => ex_ppf_train 0 x ys) (In2 (Mat 2 (map fst ex_data))) = (f', Ok tt).
Proof.
  intros L. assert (Hs : samples 2 (map fst ex_data)) by (split; [discriminate|repeat constructor]).
  destruct (C71_success 2 (map fst ex_data) ys 2 [1; 3] (In1 ys) f Hs L (or_introl eq_refl) ltac:(lra) eq_refl ltac:(repeat constructor; lra)) as [[_ Sx] _].
  assert (Nd : NoDup (map fst ex_data)).
  { repeat constructor; cbn; intros H; [destruct H as [H|[]]; injection H as H; lra|exact H]. }
  specialize (Sx Nd). unfold ex_ppf_train. destruct (train f _ _) as [f' [[]|e]] eqn:E; [now exists f'|]. destruct Sx as [u Su]. discriminate.
Qed.
Lemma c_train_intro pf tf pt c data ns a c0 rest m v m' tg inp fs ppf :
  mapM (fun p => train_copy pf tf (m_select (c_dmp c) ns) (snd p)) data = Ok (c0 :: rest) -> last (c0 :: rest) c0 = (m, v) ->
  set_means m (map fst (c0 :: rest)) = Ok m' -> as_matrix (map snd (c0 :: rest)) = Ok tg -> as_matrix (map fst data) = Ok inp ->
  ppf_list a (length v) = Ok fs -> train_ppf pt fs inp (mrows tg) (length v) = Ok ppf ->
  c_train pf tf pt c data ns a = Ok (Ctx m' (Some ppf) (c_tau c)).
Proof.
  intros E1 E2 E3 E4 E5 E6 E7. unfold c_train. rewrite E1. cbn [bind]. rewrite E2, E3. cbn [bind]. rewrite E4. cbn [bind]. rewrite E5. cbn [bind].
  rewrite E6. cbn [bind]. rewrite E7. reflexivity.
Qed.
Lemma ex_means sy m1 v1 m2 v2 : train_copy ex_pf ex_tf (m_select (ex_dmp_at sy [ex_fa]) ex_names) ex_demo = Ok (m1, v1) ->
  train_copy ex_pf ex_tf (m_select (ex_dmp_at sy [ex_fa]) ex_names) ex_demo2 = Ok (m2, v2) -> exists m, set_means m2 [m1; m2] = Ok m.
Proof.
  intros E1 E2.
  pose proof (copy_frame ex_pf ex_tf _ ([0; 5], ex_demo) m1 v1 E1) as [T1 _]. pose proof (copy_frame ex_pf ex_tf _ ([1; 5], ex_demo2) m2 v2 E2) as [T2 _].
  destruct (train_split _ _ _ _ _ T1) as (a3 & aa & af & _ & _ & S1 & -> & _). destruct (train_split _ _ _ _ _ T2) as (b3 & ba & bf & _ & _ & S2 & -> & _).
  cbn [snd tj_ts tj_ys ex_demo ex_demo2 mrows last nth] in S1, S2. assert (b3 = a3) by congruence. subst b3. clear E1 E2 T1 T2 S2.
  change (m_select (ex_dmp_at sy [ex_fa]) ex_names) with (ex_dmp_at sy [fa_select ex_fa ex_names]) in S1.
  destruct (setup3_frame _ _ _ _ _ S1) as (_ & _ & _ & A1 & A2 & A3 & _).
  unfold setup3 in S1. destruct (set_tau _ 3) as [n1|] eqn:F1; [|discriminate]. cbn [bind] in S1. apply set_tau_frame in F1. destruct F1 as [_ F1].
  destruct (set_y0 n1 [0]) as [n2|] eqn:F2; [|discriminate]. cbn [bind] in S1. apply set_y0_frame in F2. destruct F2 as (_ & sp & g & Esp & Eg & F2).
  apply set_yattr_frame in S1. destruct S1 as (_ & g' & Eg' & F3).
  assert (G1 : m_goal n1 = None) by (rewrite F1; reflexivity). rewrite G1 in Eg.
  assert (G3 : m_goal a3 = None) by (rewrite F3; unfold goal_attr in Eg'; rewrite F2 in Eg'; cbn in Eg'; rewrite Eg in Eg'; cbn; congruence).
  assert (D3 : d_dimy (m_spring a3) = 1%nat).
  { rewrite F3, F2. cbn. unfold d_set_y_init in Esp. destruct (set_y_init _ _ _); [|discriminate]. cbn in Esp. injection Esp as <-. cbn. rewrite F1. reflexivity. }
  unfold set_means. cbn [map]. set (b := upd_ts (upd_fas (upd_amps a3 (Some ba)) bf) _).
  set (t := avg _). set (y := avg_rows [get_y0 _; _]). set (z := avg_rows [m_attr _; _]).
  assert (Ly : length y = 1%nat).
  { unfold y. rewrite avg_rows_length. cbn [hd]. unfold get_y0. cbn [m_dim m_x_init upd_ts upd_fas upd_amps]. rewrite A2, A3. reflexivity. }
  assert (Lz : length z = 1%nat).
  { unfold z. rewrite avg_rows_length. cbn [hd]. cbn [m_attr upd_ts upd_fas upd_amps]. rewrite F3. reflexivity. }
  clearbody y z t.
  unfold set_tau. destruct (Req_EM_T (m_tau b) 0) as [e|_]; [cbn in e; lra|]. cbn [bind].
  set (n := upd_tau _ _ _ _ _ _). assert (Dn : m_dim n = 1%nat) by (cbn; rewrite A2; reflexivity). assert (Gn : m_goal n = None) by (cbn; rewrite G3; reflexivity).
  assert (Sn : d_dimy (m_spring n) = 1%nat) by exact D3. clearbody n.
  unfold set_y0. rewrite Ly, Dn. cbn [Nat.eqb]. unfold d_set_y_init. rewrite Sn, Gn.
  destruct y as [|y0 [|]]; try discriminate. cbn.
  unfold set_yattr. rewrite Lz. cbn [m_dim upd_y0]. rewrite Dn. cbn [Nat.eqb]. unfold goal_attr. cbn [m_goal upd_y0 bind]. eexists. reflexivity.
Qed.
Lemma ex_trains sy : exists c', c_train ex_pf ex_tf ex_ppf_train (ex_ctx_at sy) ex_data ex_names ex_ppf = Ok c'.
Proof.
  destruct (ex_copy sy ex_demo ltac:(now left)) as (m1 & v1 & E1 & L1 & _). destruct (ex_copy sy ex_demo2 ltac:(right; now left)) as (m2 & v2 & E2 & L2 & _).
  destruct (ex_means sy m1 v1 m2 v2 E1 E2) as [m E3].
  set (f := new_fa ["inputs"; "lengths"; "max_covariance"; "gram_inv_targets"]%string).
  destruct (ex_gpr_trains f (col 0 [v1; v2]) eq_refl) as [f0 F0]. destruct (ex_gpr_trains f (col 1 [v1; v2]) eq_refl) as [f1 F1].
  eexists. eapply (c_train_intro ex_pf ex_tf ex_ppf_train (ex_ctx_at sy) ex_data ex_names ex_ppf (m1, v1) [(m2, v2)] m2 v2 m (Mat 2 [v1; v2]) (Mat 2 (map fst ex_data)) (repeat f 2) [f0; f1]).
  - cbn [ex_data mapM snd c_dmp ex_ctx_at]. rewrite E1. cbn [bind]. rewrite E2. reflexivity.
  - reflexivity.
  - exact E3.
  - unfold as_matrix. cbn [map snd hd forallb]. rewrite L1, L2. reflexivity.
  - reflexivity.
  - rewrite L2. reflexivity.
  - rewrite L2. unfold train_ppf. cbn [seq mapM nth_res nth_error repeat bind mrows]. unfold nth_res. cbn [nth_error bind].
    rewrite F0. cbn [bind]. change (ex_ppf_train 1) with (ex_ppf_train 0). rewrite F1. reflexivity.
Qed.
Lemma ex_fits : exp_goal_fits (c_dmp ex_ctx).
Proof. exact I. Qed.
Lemma ex_usable : exists c' fs, c_train ex_pf ex_tf ex_ppf_train ex_ctx ex_data ex_names ex_ppf = Ok c' /\ usable_ctx c' fs /\ length fs = 2%nat.
Proof.
  destruct (ex_trains 0) as [c' E]. exists c'. pose proof (trained_selectable ex_pf ex_tf ex_ppf_train _ _ _ _ _ E ex_yields eq_refl) as Sel.
  destruct (trained_usable ex_pf ex_tf ex_ppf_train _ _ _ _ _ E ex_fits Sel) as (fs & U). exists fs. split; [exact E|]. split; [exact U|].
  destruct (demo_predictions ex_pf ex_tf ex_ppf_predict ex_ppf_train _ _ _ _ _ fs 0 [0; 5] ex_demo E (proj1 U) eq_refl ex_interpolates) as (mk & vk & Ek & [L _]).
  destruct (ex_copy 0 ex_demo ltac:(now left)) as (m1 & v1 & E1 & L1 & _). cbn [c_dmp ex_ctx ex_ctx_at] in Ek. congruence.
Qed.

(** a contextual DMP with two dimensions whose attractor is predicted *)
Definition ex_goal_dmp : dmp :=
  Dmp 2 2 (repeat 0 10) None [7; 8] None ["goal"%string] (Dsys 2 [0; 0; 0; 0] [7; 8] (PScal 20) (PScal 100) (PScal 1) 2) None
      (SubE (Esys 2 [1] [0] (PScal 4))) (SubE (Esys 2 [1] [0] (PScal 4))) None false NoScaling None None.
Definition ex_goal_ppf : list fa := [Fa [] (Some 1%nat) None; Fa [] (Some 1%nat) None].
Definition ex_goal_ctx : ctx := Ctx ex_goal_dmp (Some ex_goal_ppf) 2.
Definition ex_goal_predict : nat -> list (string * pval) -> mat -> res (list R) := fun i _ x => Ok (map (fun r => nth 0 r 0 + INR i) (mrows x)).
Lemma ex_goal_usable : usable_ctx ex_goal_ctx ex_goal_ppf.
Proof. split; [reflexivity|]. split; [reflexivity|]. split; [split; [constructor|reflexivity]|]. split; exact I. Qed.
Lemma ex_goal_predicted : predicted ex_goal_predict ex_goal_ppf (task [6]) [6; 7].
Proof.
  split; [reflexivity|]. intros [|[|i]] f H; cbn in H; try (destruct i; discriminate); injection H as <-; unfold task, ex_goal_predict; cbn; f_equal; f_equal; cbn; lra.
Qed.
