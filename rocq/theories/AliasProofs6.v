(** The regression models, and what happens to programs which are not careful. *)
From Coq Require Import String.
From Verif Require Import Base BaseLemmas DynModel ParamModel FaModel TrajModel AliasModel AliasDyn AliasFa AliasSpec AliasProofs AliasProofs2 AliasProofs3.
Open Scope R_scope.

Lemma as_column_concat x : List.concat (mrows (as_column x)) = x.
Proof. cbn. induction x as [|a x IH]; cbn; [reflexivity|]. now rewrite IH. Qed.
(** the parameter which GPR shares with the caller is the array of the inputs *)
Lemma reg_hold r x t ps : reg_train r x t = Ok ps -> forall n v, In (n, v) ps -> reg_holds r n = true -> pdata v = x.
Proof.
  intros H n v Hin Hh. destruct r as [| | |mc ls]; try discriminate. cbn [reg_holds] in Hh. apply String.eqb_eq in Hh. subst n.
  cbn [reg_train] in H. unfold gpr_train in H. destruct (if Nat.eqb _ _ then _ else _) as [l|]; [|discriminate]. cbn [bind] in H. cbv zeta in H.
  destruct (gpr_activations _ _ _) as [gram|]; [|discriminate]. cbn [bind] in H. destruct (FaModel.inv gram) as [gi|]; [|discriminate]. cbn [bind] in H.
  destruct (mmul _ _) as [git|]; [|discriminate]. cbn [bind] in H. injection H as <-. cbn [List.app] in Hin.
  destruct Hin as [E|[E|[E|[E|[]]]]]; try discriminate. injection E as <-. apply as_column_concat.
Qed.
Theorem careful_regressor r f args es : careful (f_meth (reg_train r) (reg_predict r)) fa_keeps fa_shares f args [] es ->
  run_fa (reg_train r) (reg_predict r) (reg_holds r) f args es = by_value (f_meth (reg_train r) (reg_predict r)) f args es.
Proof. apply careful_fa. apply reg_hold. Qed.

(** ** integrate_start returns the array of the initial state *)
Lemma start_value tau a x0 xa : tau <> 0 -> length x0 = length xa -> exists xd, a_start (AE (Esys tau x0 xa (PScal a))) = Ok (AE (Esys tau x0 xa (PScal a)), [x0; xd]).
Proof.
  intros Ht L. unfold a_start, integrate_start. cbn [a_rate a_init e_init]. unfold e_diffeq. cbn [e_attr e_alpha e_tau].
  unfold vop. rewrite <- L, Nat.eqb_refl. cbn [bind pop]. unfold vdiv. destruct (Req_EM_T tau 0); [contradiction|]. cbn [bind]. eexists. reflexivity.
Qed.
Ltac reads := unfold read, view; cbn [r_len r_off r_addr skipn nth Nat.add]; rewrite ?firstn_all.
Ltac call := unfold do_call at 1; cbn [w_heap w_obj w_refs w_vars map load put get nf rets binds systems a_put a_get a_nf a_rets a_binds nth e_init e_attr e_alpha e_tau pput pget]; reads.
Ltac place := cbn [bind map seq length nth nf get rets binds systems a_nf a_get a_rets a_binds e_init e_attr e_alpha pget locate rlocate place view r_addr r_off r_len Nat.add List.app a_dimx a_init].
Theorem start_shares tau a x0 xa i v : tau <> 0 -> length x0 = length xa -> (i < length x0)%nat ->
  exists xd, run_system (NewExponential tau (CScal a)) [x0; xa] [ECall AStart []; EWrite 2 i v; ECall AGetX []] = Ok [Ok [x0; xd]; Ok [set_nth x0 i v]] /\
    by_value_system (NewExponential tau (CScal a)) [x0; xa] [ECall AStart []; EWrite 2 i v; ECall AGetX []] = Ok [Ok [x0; xd]; Ok [x0]].
Proof.
  intros Ht L Hi. destruct (start_value tau a x0 xa Ht L) as [xd E]. exists xd. split.
  - unfold run_system. cbn [construct bind length Nat.leb cin andb]. f_equal. cbn [nth cpar].
    unfold boot. cbn [nf systems a_nf get a_get map seq length nth c_binds locate place pget csource List.app e_init e_attr e_alpha].
    cbn [view r_addr r_off r_len Nat.add]. cbn [run].
    call. change (meth systems AStart ?o []) with (a_start o). rewrite E. place. cbn [run w_vars nth]. cbn [r_len r_addr].
    unfold view. cbn [r_len r_addr r_off Nat.add]. rewrite (proj2 (Nat.ltb_lt _ _) Hi). unfold poke. cbn [w_heap w_obj w_refs w_vars r_addr r_off nth set_nth Nat.add].
    call. cbn [meth systems a_meth a_init e_init]. unfold get_x_init. place.
    rewrite firstn_all2 by (now rewrite set_nth_length). reflexivity.
  - unfold by_value_system. cbn [construct bind length Nat.leb cin andb]. f_equal. cbn [nth cpar by_value map a_meth]. rewrite E. cbn [List.app nth set_nth].
    rewrite (proj2 (Nat.ltb_lt _ _) Hi). reflexivity.
Qed.
(** ** the array given as attractor to the constructor *)
Theorem attractor_shares tau a x0 xa i v : (i < length xa)%nat ->
  run_system (NewExponential tau (CScal a)) [x0; xa] [EWrite 1 i v; ECall AGetAttr []] = Ok [Ok [set_nth xa i v]] /\
  by_value_system (NewExponential tau (CScal a)) [x0; xa] [EWrite 1 i v; ECall AGetAttr []] = Ok [Ok [xa]].
Proof.
  intros Hi. split.
  - unfold run_system. cbn [construct bind length Nat.leb cin andb]. f_equal. cbn [nth cpar].
    unfold boot. cbn [nf systems a_nf get a_get map seq length nth c_binds locate place pget csource List.app e_init e_attr e_alpha].
    unfold view. cbn [run w_vars nth r_addr r_off r_len Nat.add]. rewrite (proj2 (Nat.ltb_lt _ _) Hi). unfold poke. cbn [w_heap w_obj w_refs w_vars r_addr r_off nth set_nth Nat.add].
    call. cbn [meth systems a_meth a_init e_init]. place. rewrite firstn_all2 by (now rewrite set_nth_length). reflexivity.
  - unfold by_value_system. cbn [construct bind length Nat.leb cin andb]. f_equal. cbn [nth cpar by_value map a_meth].
    rewrite (proj2 (Nat.ltb_lt _ _) Hi). reflexivity.
Qed.

(** ** the capacities of a SigmoidSystem after its initial state has been changed in place *)
Definition capacity (tau r q n0 : R) : R := n0 * (1 + 1 / exp (- r * (tau * q))).
Lemma one_ks tau r q n0 : s_ks (Ssys tau [n0] (PScal r) (PScal q)) = Ok [capacity tau r q n0].
Proof. reflexivity. Qed.
Lemma one_rate tau r q n0 k x : k <> 0 -> s_diffeq_k (Ssys tau [n0] (PScal r) (PScal q)) [k] [x] = Ok [r * x * (1 - x / k)].
Proof. intros H. unfold s_diffeq_k. cbn [existsb]. destruct (Req_EM_T k 0); [contradiction|]. reflexivity. Qed.
Lemma capacity_pos tau r q n0 : n0 <> 0 -> capacity tau r q n0 <> 0.
Proof.
  intros H. unfold capacity. apply Rmult_integral_contrapositive_currified; [exact H|]. assert (P := exp_pos (- r * (tau * q))).
  assert (0 < 1 / exp (- r * (tau * q))) by (apply Rdiv_lt_0_compat; lra). lra.
Qed.
Ltac comp := cbn -[s_ks s_diffeq_k capacity a_rate a_touch]; try unfold do_call at 1; cbn -[s_ks s_diffeq_k capacity a_rate a_touch].
Theorem stale_capacities tau r q x0 v x : x0 <> 0 -> v <> 0 ->
  run_system (NewSigmoid tau (CScal r) (CScal q)) [[x0]] [ECall AGetX []; EWrite 1 0 v; ENew [x]; ECall ADiffeq [2%nat]] =
    Ok [Ok [[x0]]; Ok [[r * x * (1 - x / capacity tau r q v)]]] /\
  run_system (NewSigmoid tau (CScal r) (CScal q)) [[x0]] [ENew [x]; ECall ADiffeq [1%nat]; ECall AGetX []; EWrite 3 0 v; ECall ADiffeq [1%nat]] =
    Ok [Ok [[r * x * (1 - x / capacity tau r q x0)]]; Ok [[x0]]; Ok [[r * x * (1 - x / capacity tau r q x0)]]].
Proof.
  intros H0 Hv. assert (C0 := capacity_pos tau r q x0 H0). assert (Cv := capacity_pos tau r q v Hv). split.
  - comp. unfold a_rate, a_touch, c_get_ks. cbn [c_ks c_sys]. rewrite one_ks. cbn [fst snd bind]. rewrite one_rate by exact Cv. reflexivity.
  - comp. unfold a_rate at 1, a_touch at 1, c_get_ks. cbn [c_ks c_sys]. rewrite one_ks. cbn [fst snd bind]. rewrite one_rate by exact C0.
    comp. unfold a_rate, a_touch, c_get_ks. cbn [c_ks c_sys fst snd bind]. rewrite one_rate by exact C0. reflexivity.
Qed.
Lemma capacity_differs tau r q x0 v x : x0 <> 0 -> v <> 0 -> v <> x0 -> r <> 0 -> x <> 0 ->
  r * x * (1 - x / capacity tau r q v) <> r * x * (1 - x / capacity tau r q x0).
Proof.
  intros H0 Hv Hd Hr Hx E. assert (C0 := capacity_pos tau r q x0 H0). assert (Cv := capacity_pos tau r q v Hv).
  apply Rmult_eq_reg_l in E; [|now apply Rmult_integral_contrapositive_currified].
  assert (E2 : x / capacity tau r q v = x / capacity tau r q x0) by lra. unfold Rdiv in E2. apply Rmult_eq_reg_l in E2; [|exact Hx].
  assert (E3 : capacity tau r q v = capacity tau r q x0) by (rewrite <- (Rinv_inv (capacity tau r q v)), E2; apply Rinv_inv).
  unfold capacity in E3. apply Rmult_eq_reg_r in E3; [contradiction|]. assert (P := exp_pos (- r * (tau * q))).
  assert (0 < 1 / exp (- r * (tau * q))) by (apply Rdiv_lt_0_compat; lra). lra.
Qed.

(** ** the vector given to set_param_vector *)
Definition one_array (n : nat) (data : list R) : fa := Fa [("weights"%string, PArr (Arr [n] data))] (Some 1%nat) (Some ["weights"%string]).
Theorem param_vector_shares tr pr ho data v i w : length v = length data -> (i < length v)%nat ->
  run_fa tr pr ho (one_array (length data) data) [v] [ECall FSet [0%nat]; EWrite 0 i w; ECall FGet []] = [Ok []; Ok [set_nth v i w]] /\
  by_value (f_meth tr pr) (one_array (length data) data) [v] [ECall FSet [0%nat]; EWrite 0 i w; ECall FGet []] = [Ok []; Ok [v]].
Proof.
  intros L Hi. set (n := length data) in *.
  assert (S : forall d, fa_set (one_array n d) v = (one_array n v, Ok tt)).
  { intros d. unfold fa_set, one_array. cbn -[Nat.eqb firstn Nat.mul]. rewrite Nat.add_0_r, Nat.mul_1_r, L, Nat.eqb_refl. 
    replace (firstn n v) with v by (rewrite <- L; symmetry; apply firstn_all). rewrite L, Nat.eqb_refl. reflexivity. }
  assert (G : forall d, fa_get (one_array n d) = Ok d) by (intros d; cbn; now rewrite app_nil_r).
  assert (Z : fa_size (one_array n data) = Ok n) by (cbn; now rewrite Nat.add_0_r, Nat.mul_1_r).
  split.
  - unfold run_fa, boot. cbn [nf approximators one_array f_model length seq map locate get nth ents pdata snd adata place List.app].
    cbn [run]. unfold do_call at 1. cbn [w_heap w_obj w_refs w_vars map load put approximators f_put one_array f_model ents_put pset f_dim f_sel ashape nth]. reads.
    change (f_put 0 data (one_array n data)) with (one_array n data). change (meth (approximators tr pr ho)) with (f_meth tr pr). cbn [f_meth].
    rewrite S. cbn [bind nf approximators one_array f_model length seq map get rets f_rets nth binds f_binds ents pdata snd adata place].
    change (fa_sources (one_array n data) 0) with [Arg 0 0 (prod [n])]. cbn [nth locate]. unfold view. cbn [r_addr r_off Nat.add place w_vars List.app nth r_len].
    rewrite (proj2 (Nat.ltb_lt _ _) Hi). unfold poke. cbn [w_heap w_obj w_refs w_vars r_addr r_off nth set_nth Nat.add].
    unfold do_call. cbn [w_heap w_obj w_refs w_vars map load put approximators]. unfold read. cbn [r_len r_off r_addr skipn nth prod fold_right].
    rewrite firstn_all2 by (rewrite set_nth_length; cbn; lia).
    change (f_put 0 (set_nth v i w) (one_array n v)) with (one_array n (set_nth v i w)). change (meth (approximators tr pr ho)) with (f_meth tr pr). cbn [f_meth]. rewrite G. reflexivity.
  - cbn [by_value map nth f_meth]. rewrite S. cbn [List.app nth]. rewrite (proj2 (Nat.ltb_lt _ _) Hi). rewrite G. reflexivity.
Qed.
