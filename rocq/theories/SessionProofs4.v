(** Entries of successive updates *)
From Coq Require Import String Ascii NArith.
From Verif Require Import Base BaseLemmas SessionModel SessionSpec SessionStrings SessionProofs SessionProofs2 SessionProofs3.
Open Scope string_scope.

Lemma gbn_update n s z : get_base_name n (IInt z) s = KPath ("update" ++ fmt 5 z ++ "/" ++ sample_name n s).
Proof. reflexivity. Qed.
Lemma gbn_eq n s i n' s' j :
  get_base_name n (IInt (Z.of_nat i)) s = get_base_name n' (IInt (Z.of_nat j)) s' <-> i = j /\ sample_name n s = sample_name n' s'.
Proof.
  rewrite !gbn_update. split.
  - intros H. injection H as H. apply digits_split in H; try reflexivity; try (apply fmt_digits; lia).
    destruct H as [H1 H2]. apply fmt_inj in H1; [|lia|lia]. split; [lia|exact H2].
  - intros [-> ->]. reflexivity.
Qed.
Lemma gbn_str n z s : get_base_name n (IInt z) s = get_base_name (sample_name n s) (IInt z) INone.
Proof. reflexivity. Qed.

Section S4.
Variable V : Type.

(** the most recent entry under a name *)
Fixpoint recent (nm : string) (es : list (string * V)) : option V :=
  match es with
  | [] => None
  | (n, v) :: es' => match recent nm es' with
                     | Some v' => Some v'
                     | None => if String.eqb nm n then Some v else None
                     end
  end.
Definition update_log (i : nat) (es : list (string * V)) : list (key * V) :=
  map (fun e => (get_base_name (fst e) (IInt (Z.of_nat i)) INone, snd e)) es.
Fixpoint update_logs (b : nat) (ess : list (list (string * V))) : list (key * V) :=
  match ess with
  | [] => []
  | es :: ess' => (update_log b es ++ update_logs (S b) ess')%list
  end.

Lemma latest_update_log i nm es : latest (get_base_name nm (IInt (Z.of_nat i)) INone) (update_log i es) = recent nm es.
Proof.
  induction es as [|[n v] es IH]; [reflexivity|]. cbn [update_log map fst snd latest recent].
  fold (update_log i es). rewrite IH. destruct (recent nm es); [reflexivity|].
  destruct (String.eqb nm n) eqn:E.
  - apply String.eqb_eq in E; subst. now rewrite key_eqb_refl.
  - apply String.eqb_neq in E. rewrite key_eqb_neq; [reflexivity|]. intros H. apply gbn_eq in H. now destruct H.
Qed.
Lemma update_logs_app b ess ess' : update_logs b (ess ++ ess') = (update_logs b ess ++ update_logs (b + length ess) ess')%list.
Proof.
  revert b; induction ess as [|es ess IH]; intros b; cbn [app update_logs length].
  - now rewrite Nat.add_0_r.
  - rewrite IH, <- app_assoc. do 3 f_equal. lia.
Qed.
Lemma latest_logs_ge b ess i nm : (i < b)%nat -> latest (get_base_name nm (IInt (Z.of_nat i)) INone) (update_logs b ess) = None.
Proof.
  revert b; induction ess as [|es ess IH]; intros b H; [reflexivity|]. cbn [update_logs]. rewrite latest_app, IH by lia.
  clear IH. induction es as [|[n v] es IH]; [reflexivity|]. cbn [update_log map fst snd latest]. fold (update_log b es). rewrite IH.
  rewrite key_eqb_neq; [reflexivity|]. intros E. apply gbn_eq in E. destruct E. lia.
Qed.
Lemma latest_logs b ess i es nm v : nth_error ess i = Some es -> recent nm es = Some v ->
  latest (get_base_name nm (IInt (Z.of_nat (b + i))) INone) (update_logs b ess) = Some v.
Proof.
  revert b i; induction ess as [|e ess IH]; intros b i Hi Hr; [destruct i; discriminate|]. cbn [update_logs].
  rewrite latest_app. destruct i as [|i].
  - injection Hi as ->. rewrite latest_logs_ge by lia. rewrite Nat.add_0_r, latest_update_log. exact Hr.
  - rewrite Nat.add_succ_r. change (S (b + i)) with (S b + i)%nat. rewrite (IH (S b) i Hi Hr). reflexivity.
Qed.

Variable category : V -> ext.
Variable load : ext -> V -> V.
Variable of_int : Z -> V.

Lemma stored_of_log w0 n r kwargs cs ess rest i es nm is v :
  flat_map call_log cs = (update_logs 0 ess ++ update_log (length ess) rest)%list ->
  nth_error ess i = Some es -> recent (sample_name nm is) es = Some v ->
  let ws := do_calls category (new_session category of_int w0 n r kwargs) cs in
  returns (ask load (fst ws) (snd ws) nm (IInt (Z.of_nat i)) is) v.
Proof.
  intros Hl Hi Hr ws. apply avail_returns.
  assert (HL : LInv V (told_new of_int n kwargs ++ flat_map call_log cs)%list ws).
  { apply do_calls_linv. apply new_session_linv. }
  eapply linv_avail; [exact HL|]. rewrite latest_app, Hl.
  assert (E : latest (get_base_name nm (IInt (Z.of_nat i)) is) (update_logs 0 (ess ++ [rest])) = Some v).
  { rewrite gbn_str. apply (latest_logs 0 (ess ++ [rest]) i es); [|exact Hr].
    rewrite nth_error_app1; [exact Hi|]. apply nth_error_Some. congruence. }
  rewrite update_logs_app in E. cbn [update_logs] in E. rewrite app_nil_r in E. cbn [Nat.add] in E. now rewrite E.
Qed.

(** the directory after calls *)
Lemma do_call_dinv log ws c : DInv V category log ws -> DInv V category (log ++ call_log c)%list (do_call category ws c).
Proof.
  intros H. destruct ws as [w s].
  destruct c as [v name iu is|i x y|i d sm co we dn]; unfold SessionSpec.do_call, call_log; cbn [fst snd].
  - now apply tell_dinv.
  - unfold add_eval. pose proof (tell_dinv V category log w s y "eval_cost" (IInt i) INone H) as T1.
    destruct (tell category w s y "eval_cost" (IInt i) INone) as [w1 s1].
    pose proof (tell_dinv V category _ w1 s1 x "eval_sample" (IInt i) INone T1) as T2. rewrite <- app_assoc in T2. exact T2.
  - unfold add_update.
    pose proof (tell_dinv V category _ w s d "distribution" (IInt i) INone H) as T1.
    destruct (tell category w s d "distribution" (IInt i) INone) as [w1 s1].
    pose proof (tell_dinv V category _ w1 s1 sm "samples" (IInt i) INone T1) as T2.
    destruct (tell category w1 s1 sm "samples" (IInt i) INone) as [w2 s2].
    pose proof (tell_dinv V category _ w2 s2 co "costs" (IInt i) INone T2) as T3.
    destruct (tell category w2 s2 co "costs" (IInt i) INone) as [w3 s3].
    pose proof (tell_dinv V category _ w3 s3 we "weights" (IInt i) INone T3) as T4.
    destruct (tell category w3 s3 we "weights" (IInt i) INone) as [w4 s4].
    destruct dn as [dn|].
    + pose proof (tell_dinv V category _ w4 s4 dn "distribution_new" (IInt i) INone T4) as T5.
      destruct (tell category w4 s4 dn "distribution_new" (IInt i) INone) as [w5 s5].
      rewrite <- !app_assoc in T5. exact T5.
    + rewrite <- !app_assoc in T4. exact T4.
Qed.
Lemma do_calls_dinv cs log ws : DInv V category log ws -> DInv V category (log ++ flat_map call_log cs)%list (do_calls category ws cs).
Proof.
  revert log ws; induction cs as [|c cs IH]; intros log ws H.
  - cbn. now rewrite app_nil_r.
  - cbn [flat_map]. rewrite app_assoc. apply IH. now apply do_call_dinv.
Qed.
End S4.
