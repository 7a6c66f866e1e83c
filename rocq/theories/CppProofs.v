(** Proofs about the C++ counterpart: reading what Python has written. *)
From Coq Require Import String.
From Verif Require Import Base BaseLemmas DynModel DynSpec DynProofs ParamModel FaModel TrajModel DmpModel DmpSpec DmpProofs DmpProofs2 CppModel CppSpec.
Open Scope string_scope.
Open Scope R_scope.

(** ** arrays *)
Definition colm (l : list R) : list (list R) := map (fun x => [x]) l.
Lemma chunks_one l : forall n, length l = n -> chunks 1 n l = colm l.
Proof. induction l as [|a l IH]; intros n <-; [reflexivity|]. cbn. f_equal. now apply IH. Qed.
Lemma concat_colm l : List.concat (colm l) = l.
Proof. unfold colm. induction l; cbn; congruence. Qed.
Lemma colm_length l : length (colm l) = length l. Proof. apply map_length. Qed.
Lemma nth_colm l b : nth b (colm l) [] = match nth_error l b with Some x => [x] | None => [] end.
Proof. revert b. induction l as [|a l IH]; intros [|b]; cbn; trivial. Qed.
Lemma mget_colm l b : (b < length l)%nat -> mget (Mat 1 (colm l)) b 0 = nth b l 0.
Proof. intros H. unfold mget. cbn [mrows]. unfold colm. now rewrite (nth_map_lt _ _ _ 0) by trivial. Qed.
Lemma jnums l : mapM jnum (map JNum l) = Ok l.
Proof. induction l as [|a l IH]; cbn; [reflexivity|]. now rewrite IH. Qed.
Lemma jvec_vec l : jvec (vec_json l) = Ok l.
Proof. cbn. induction l as [|a l IH]; cbn; [reflexivity|]. now rewrite IH. Qed.
Lemma jmat_column n l : (0 < n)%nat -> length l = n -> jmat (arr_json (Arr [n; 1%nat] l)) = Ok (Mat 1 (colm l)).
Proof.
  intros Hn Hl. unfold arr_json. cbn [ashape adata]. rewrite chunks_one by trivial.
  destruct l as [|a l]; cbn in Hl; [lia|]. cbn [colm map]. unfold vec_json at 1. cbn [map jmat length].
  cbn [mapM length Nat.eqb]. cbn [map mapM jnum bind].
  assert (E : mapM (fun e => match e with
       | JArr r => if Nat.eqb (length r) 1 then mapM jnum r else Err RuntimeError
       | _ => let* v := jnum e in Ok [v] end) (map vec_json (colm l)) = Ok (colm l)).
  { clear. induction l as [|a l IH]; [reflexivity|]. cbn [colm map mapM]. fold (colm l). rewrite IH. reflexivity. }
  fold (colm l). rewrite E. reflexivity.
Qed.
Lemma lookup_json ps name : lookup (map (fun p => (fst p, pval_json (snd p))) ps) name =
  match lookup ps name with Some v => Some (pval_json v) | None => None end.
Proof.
  induction ps as [|[k v] ps IH]; cbn; [reflexivity|]. destruct (String.eqb name k); [reflexivity|exact IH].
Qed.

Section Fa.
Variable ex : R -> R.

(** ** predictions *)
Definition one_act (c w : list R) (ph : R) (b : nat) : res R :=
  let* g := FaModel.factor ex ph (nth b c 0) (nth b w 0) in Ok (1 * g).
Lemma py_acts norm ps n c w ph : (0 < n)%nat -> length c = n -> length w = n ->
  lookup ps "centers" = Some (PArr (Arr [n; 1%nat] c)) -> lookup ps "widths" = Some (PArr (Arr [n; 1%nat] w)) ->
  fa_activations ex norm ps (Mat 1 [[ph]]) =
  if (norm && Nat.eqb n 1)%bool then Ok (Mat 1 [[1]]) else
  let* row := mapM (one_act c w ph) (seq 0 n) in
  Ok (Mat n [if norm then normalize row else row]).
Proof.
  intros Hn Hc Hw Ec Ew. unfold fa_activations, param_arr. rewrite Ec, Ew. cbn [bind arr_input ashape adata].
  rewrite !chunks_one by trivial.
  unfold activations. cbn [shape0 nrows mrows mcols length]. unfold nrows. cbn [mrows]. rewrite !colm_length, Hc. cbn [Nat.eqb].
  unfold as_column. cbn [isize nrows mrows mcols idata]. unfold nrows. cbn [mrows]. rewrite !colm_length, !Nat.mul_1_r, Hc, Hw, Nat.eqb_refl.
  cbn [bind length Nat.eqb]. rewrite !concat_colm. cbn [List.concat app].
  destruct (norm && Nat.eqb n 1)%bool eqn:En; [reflexivity|].
  cbn [mcols mrows]. fold (colm c) (colm w). rewrite colm_length, Hw.
  replace (Nat.ltb n n) with false by (symmetry; apply Nat.ltb_ge; lia). cbn [Nat.ltb Nat.leb orb].
  cbn [seq mapM].
  rewrite (mapM_ext (activation ex 1 _ _ _ 0) (one_act c w ph)).
  2:{ intros b Hb. apply in_seq in Hb. unfold activation. cbn [prodM bind].
      rewrite (mget_colm c), (mget_colm w) by lia. reflexivity. }
  destruct (mapM (one_act c w ph) (seq 0 n)) as [row|e]; cbn [bind]; [|reflexivity].
  now destruct norm.
Qed.
Lemma normalize_same row : normalized row = normalize row.
Proof.
  unfold normalized, normalize. cbv zeta. destruct (Req_EM_T (rsum row) 0); reflexivity.
Qed.
Lemma cpp_acts norm n c w ph : length c = n -> length w = n ->
  cactivations ex (Mat 1 (colm c)) (Mat 1 (colm w)) [ph] norm =
  if (norm && Nat.eqb n 1)%bool then Ok [1] else
  let* row := mapM (one_act c w ph) (seq 0 n) in Ok (if norm then normalize row else row).
Proof.
  intros Hc Hw. unfold cactivations. cbn [mcols mrows length]. unfold nrows. cbn [mrows]. rewrite !colm_length, Hc, Hw, Nat.eqb_refl.
  cbn [Nat.eqb andb negb]. destruct (norm && Nat.eqb n 1)%bool; [reflexivity|].
  rewrite (mapM_ext _ (one_act c w ph)).
  2:{ intros b Hb. apply in_seq in Hb. rewrite !nth_colm. rewrite (nth_error_nth' c 0), (nth_error_nth' w 0) by lia.
      cbn [kernel]. unfold one_act, bump, FaModel.factor. destruct (Req_EM_T (nth b w 0) 0); [destruct (Req_EM_T ph (nth b c 0))|]; reflexivity. }
  destruct (mapM (one_act c w ph) (seq 0 n)); cbn [bind]; [|reflexivity]. now rewrite normalize_same.
Qed.
Lemma acts_length c w ph n row : mapM (one_act c w ph) (seq 0 n) = Ok row -> length row = n.
Proof. intros H. apply mapM_ok_length in H. now rewrite seq_length in H. Qed.
Lemma normalize_length row : length (normalize row) = length row.
Proof. unfold normalize. cbv zeta. destruct (Req_EM_T (rsum row) 0); apply map_length. Qed.

Lemma load_column ps n name : (0 < n)%nat -> is_column ps n name ->
  exists l, lookup ps name = Some (PArr (Arr [n; 1%nat] l)) /\ length l = n /\
    (let* j := jat (JObj (map (fun p => (fst p, pval_json (snd p))) ps)) name in jmat j) = Ok (Mat 1 (colm l)).
Proof.
  intros Hn (l & El & Hl). exists l. repeat split; trivial. unfold jat. rewrite lookup_json, El. cbn [bind pval_json].
  now apply jmat_column.
Qed.
Lemma rbfn_same kinds i f n : kinds i = KRbfn -> (0 < n)%nat ->
  Forall (is_column (f_model f) n) ["centers"; "widths"; "weights"] ->
  exists cf, load_fa (fa_json KRbfn f) = Ok (Some cf) /\
    forall ph, cpredict ex cf [ph] = py_predict ex kinds i (f_model f) ph.
Proof.
  intros Ek Hn H. inversion H as [|? ? H1 H']; subst. inversion H' as [|? ? H2 H'']; subst. inversion H'' as [|? ? H3 _]; subst.
  destruct (load_column _ _ _ Hn H1) as (c & Ec & Lc & Jc). destruct (load_column _ _ _ Hn H2) as (w & Ew & Lw & Jw).
  destruct (load_column _ _ _ Hn H3) as (v & Ev & Lv & Jv).
  exists (CRbfn (Mat 1 (colm c)) (Mat 1 (colm w)) (Mat 1 (colm v))). split.
  - unfold load_fa. change (jat (fa_json KRbfn f) "class") with (Ok (JStr "FunctionApproximatorRBFN")). cbn [bind jstr String.eqb Ascii.eqb Bool.eqb].
    unfold load_rbfn. change (jat (fa_json KRbfn f) "_model_params") with (Ok (JObj (map (fun p => (fst p, pval_json (snd p))) (f_model f)))).
    cbn [bind]. 
    destruct (jat _ "centers") as [jc|]; [cbn [bind] in Jc |- *; rewrite Jc|discriminate]. cbn [bind].
    destruct (jat _ "widths") as [jw|]; [cbn [bind] in Jw |- *; rewrite Jw|discriminate]. cbn [bind].
    destruct (jat _ "weights") as [jv|]; [cbn [bind] in Jv |- *; rewrite Jv|discriminate]. cbn [bind].
    unfold nrows. cbn [mcols mrows]. rewrite !colm_length, Lc, Lw, Lv, Nat.eqb_refl. reflexivity.
  - intros ph. unfold py_predict. rewrite Ek. unfold rbfn_predict.
    rewrite (py_acts false _ n c w) by trivial. cbn [andb cpredict].
    rewrite (cpp_acts false n c w) by trivial. cbn [andb].
    destruct (mapM (one_act c w ph) (seq 0 n)) as [row|e] eqn:Er; cbn [bind]; [|reflexivity].
    unfold param_arr. rewrite Ev. cbn [bind]. unfold weighted_sum. unfold nrows. cbn [mcols mrows length].
    cbn [seq mapM].
    rewrite (mapM_pure _ (fun ii => [nth ii v 0])).
    2:{ intros ii Hi. apply in_seq in Hi. unfold weight_at. cbn [ashape adata]. replace (Nat.ltb ii n) with true by (symmetry; apply Nat.ltb_lt; lia).
        reflexivity. }
    cbn [bind map one]. rewrite colm_length, Lc. f_equal. rewrite rsum_seq. apply sumn_ext. intros b Hb.
    rewrite nth_map_seq by lia. rewrite mget_colm by lia. unfold mget. reflexivity.
Qed.
Lemma lwr_same kinds i f n : kinds i = KLwr -> (0 < n)%nat ->
  Forall (is_column (f_model f) n) ["centers"; "widths"; "slopes"; "offsets"] ->
  exists cf, load_fa (fa_json KLwr f) = Ok (Some cf) /\
    forall ph, cpredict ex cf [ph] = py_predict ex kinds i (f_model f) ph.
Proof.
  intros Ek Hn H. inversion H as [|? ? H1 H']; subst. inversion H' as [|? ? H2 H'']; subst. inversion H'' as [|? ? H3 H''']; subst.
  inversion H''' as [|? ? H4 _]; subst.
  destruct (load_column _ _ _ Hn H1) as (c & Ec & Lc & Jc). destruct (load_column _ _ _ Hn H2) as (w & Ew & Lw & Jw).
  destruct (load_column _ _ _ Hn H3) as (v & Ev & Lv & Jv). destruct (load_column _ _ _ Hn H4) as (o & Eo & Lo & Jo).
  exists (CLwr (Mat 1 (colm c)) (Mat 1 (colm w)) (Mat 1 (colm v)) (Mat 1 (colm o))). split.
  - unfold load_fa. change (jat (fa_json KLwr f) "class") with (Ok (JStr "FunctionApproximatorLWR")). cbn [bind jstr String.eqb Ascii.eqb Bool.eqb].
    unfold load_lwr. change (jat (fa_json KLwr f) "_model_params") with (Ok (JObj (map (fun p => (fst p, pval_json (snd p))) (f_model f)))).
    cbn [bind].
    destruct (jat _ "centers") as [jc|]; [cbn [bind] in Jc |- *; rewrite Jc|discriminate]. cbn [bind].
    destruct (jat _ "widths") as [jw|]; [cbn [bind] in Jw |- *; rewrite Jw|discriminate]. cbn [bind].
    destruct (jat _ "slopes") as [jv|]; [cbn [bind] in Jv |- *; rewrite Jv|discriminate]. cbn [bind].
    destruct (jat _ "offsets") as [jo|]; [cbn [bind] in Jo |- *; rewrite Jo|discriminate]. cbn [bind].
    unfold nrows. cbn [mcols mrows]. rewrite !colm_length, Lc, Lw, Lv, Lo, Nat.eqb_refl. reflexivity.
  - intros ph. unfold py_predict. rewrite Ek. unfold lwr_predict, get_lines, param_arr. rewrite Ev, Eo. cbn [bind ashape adata].
    rewrite chunks_one by trivial. unfold nrows at 1. cbn [mcols mrows]. rewrite colm_length, Lv, Lo.
    replace (Nat.ltb n n) with false by (symmetry; apply Nat.ltb_ge; lia). cbn [Nat.eqb negb andb bind].
    rewrite (py_acts true _ n c w) by trivial. cbn [cpredict].
    rewrite (cpp_acts true n c w) by trivial. cbn [andb]. unfold nrows. cbn [mrows length]. rewrite colm_length, Lc.
    assert (Fin : forall a, length a = n ->
      Ok (rsum (map2 Rmult (map (fun b => rsum (map2 Rmult [ph] (nth b (colm v) [])) + mget (Mat 1 (colm o)) b 0) (seq 0 n)) a)) =
      (let* l := (let* p := mtimes (mtab 1 n (fun i l => rsum (map2 Rmult (nth i [[ph]] []) (nth l (colm v) [])) + nth l o 0)) (Mat n [a]) in
                  Ok (map rsum (mrows p))) in one l)).
    { intros a La. unfold mtimes. cbn [mcols mtab]. rewrite Nat.eqb_refl. cbn [bind]. unfold nrows. unfold mtab at 1 2. cbn [mrows map seq length one].
      f_equal. f_equal. rewrite (map2_seq _ _ _ n) by (trivial; now rewrite map_length, seq_length).
      apply map_ext_in. intros b Hb. apply in_seq in Hb. rewrite nth_map_seq by lia. rewrite mget_colm by lia. rewrite mget_mtab by lia. reflexivity. }
    destruct (Nat.eqb_spec n 1) as [E|E].
    + cbn [bind]. rewrite (Fin [1]) by (cbn; lia). rewrite E. reflexivity.
    + destruct (mapM (one_act c w ph) (seq 0 n)) as [row|e] eqn:Er; cbn [bind]; [|reflexivity].
      rewrite (Fin (normalize row)) by (rewrite normalize_length; eapply acts_length; eauto). reflexivity.
Qed.
Lemma fa_same kinds i f : fa_portable (kinds i) f ->
  exists cf, load_fa (fa_json (kinds i) f) = Ok (Some cf) /\
    forall ph, cpredict ex cf [ph] = py_predict ex kinds i (f_model f) ph.
Proof.
  intros (_ & n & Hn & H). destruct (kinds i) eqn:Ek; [|  |contradiction].
  - eapply rbfn_same; eauto.
  - eapply lwr_same; eauto.
Qed.
End Fa.
