(** The dimensions of DMPs do not influence each other: new DMPs. *)
From Coq Require Import String Lia Lra.
From Verif Require Import Base BaseLemmas DynModel DynSpec DynProofs DynProofs2 ParamModel TrajModel DmpModel DmpSpec DmpSpec2 DmpProofs5 DmpProofs17 DimSpec.
Open Scope R_scope.

Lemma new_parts ty tau y0 attr fas kw m : (forall s b, ty <> Sct23 s b) -> 0 < tau -> full_kw (length y0) kw -> new_dmp ty tau y0 attr fas kw = Ok m ->
  let p := default_subs ty tau [] [] (new_spring tau [] [] (PScal 20) None (PScal 1)) in
  m_tau m = tau /\ m_dim m = length y0 /\ m_attr m = attr /\ m_fas m = fas /\ m_scaling m = opt (k_scaling kw) NoScaling /\ m_req m = false /\ m_damping m = None /\
  m_spring m = new_spring tau y0 attr (opt (k_alpha kw) (PScal 20)) None (PScal 1) /\
  m_goal m = match ty with Ijspeert => None | _ => Some (SubE (Esys tau y0 attr (PScal 15))) end /\
  (match p with Ok (_, ga, ph, _) => m_gating m = ga /\ m_phase m = ph /\ unrestricted ph /\ unrestricted ga | Err _ => False end).
Proof.
  intros Hty Ht (K1 & K2 & K3 & K4 & K5 & _) E p. unfold new_dmp in E. rewrite K1, K2, K3, K4, K5 in E. cbn [opt] in E. unfold p.
  destruct (for_gating_ok tau 0.1 1 Ht ltac:(lra)) as (s & Es & _).
  destruct ty as [| | |s' b]; cbn [default_subs] in *; [| | |now contradiction (Hty s' b)]; rewrite ?Es in *; cbn [bind] in E |- *;
    apply (f_equal (fun r => match r with Ok q => q | Err _ => m end)) in E; subst m; cbn; repeat split.
Qed.
Lemma alone_same pf ty tau y0 attr fas kw m i f : (forall s b, ty <> Sct23 s b) -> 0 < tau -> length attr = length y0 -> full_kw (length y0) kw -> opt (k_scaling kw) NoScaling = NoScaling ->
  (length y0 <= length fas)%nat -> (forall k f, nth_error fas k = Some f -> is_trained f = true -> forall ph, exists v, pf k (f_model f) ph = Ok v) ->
  (i < length y0)%nat -> nth_error fas i = Some f -> new_dmp ty tau y0 attr (Some fas) kw = Ok m ->
  exists m', new_dmp ty tau [nth i y0 0] [nth i attr 0] (Some [f]) (alone_kw kw i) = Ok m' /\
    same_dimension pf (alone pf i) m m' i 0 /\ same_start m m' i 0 /\ wf pf m /\ wf (alone pf i) m' /\ synced m /\ synced m' /\ plain_goal m /\ plain_goal m' /\
    dmp_regular m 0 /\ dmp_regular m' 0 /\ unrestricted (m_phase m) /\ unrestricted (m_gating m).
Proof.
  intros Hty Ht La K Ks Lf Hp Hi Ef E.
  assert (K' : full_kw 1 (alone_kw kw i)) by (repeat split).
  assert (Hd : forall a b, distinct_for ty a b) by (intros a b; destruct ty as [| | |s b']; [exact I|exact I|exact I|now contradiction (Hty s b')]).
  assert (Hf : match Some fas with None => True | Some fs => (fs = [] \/ (length y0 <= length fs)%nat) /\ forall i f, nth_error fs i = Some f -> is_trained f = true -> forall ph, exists v, pf i (f_model f) ph = Ok v end)
    by (split; [now right|exact Hp]).
  assert (Hf' : match Some [f] with None => True | Some fs => (fs = [] \/ (length [nth i y0 0%R] <= length fs)%nat) /\
     forall k g, nth_error fs k = Some g -> is_trained g = true -> forall ph, exists v, alone pf i k (f_model g) ph = Ok v end).
  { split; [right; cbn; lia|]. intros [|k] g Eg Tg ph; cbn in Eg; [injection Eg as <-; exact (Hp i f Ef Tg ph)|destruct k; discriminate]. }
  destruct (new_dmp_ok (alone pf i) ty tau [nth i y0 0] [nth i attr 0] (Some [f]) (alone_kw kw i) Ht eq_refl K' (Hd _ _) Hf') as (m' & E' & _).
  exists m'. split; [exact E'|].
  destruct (fresh_ready pf ty tau y0 attr (Some fas) kw m Ht La K (Hd _ _) Hf E) as (S & Sy & Pl & Rg & _ & Y0 & _).
  destruct (fresh_ready (alone pf i) ty tau [nth i y0 0] [nth i attr 0] (Some [f]) (alone_kw kw i) m' Ht eq_refl K' (Hd _ _) Hf' E') as (S' & Sy' & Pl' & Rg' & _ & Y0' & _).
  destruct (new_parts ty tau y0 attr (Some fas) kw m Hty Ht K E) as (T & D & A & F & Sc & Rq & Da & Sp & Go & Su).
  destruct (new_parts ty tau [nth i y0 0] [nth i attr 0] (Some [f]) (alone_kw kw i) m' Hty Ht K' E') as (T' & D' & A' & F' & Sc' & Rq' & Da' & Sp' & Go' & Su').
  destruct (default_subs _ _ _ _ _) as [[[[go ga] ph] da]|]; [|contradiction]. destruct Su as (G1 & G2 & U1 & U2). destruct Su' as (G1' & G2' & _ & _).
  cbn [alone_kw k_scaling opt] in Sc'. rewrite Ks in Sc. cbn [length] in D'.
  assert (Rd : ready m) by (split; [rewrite Rq, Sc; intros [H|H]; discriminate|rewrite Sc; discriminate]).
  assert (Rd' : ready m') by (split; [rewrite Rq', Sc'; intros [H|H]; discriminate|rewrite Sc'; discriminate]).
  split; [|split; [|split; [now apply sound_wf|split; [now apply sound_wf|]]]].
  - split; [lia|]. split; [lia|]. split; [congruence|]. split; [congruence|]. split; [congruence|]. split; [exact Da|]. split; [exact Da'|].
    rewrite Sp, Sp'. unfold new_spring. cbn [d_spring d_damp d_mass par_val pmap opt alone_kw k_alpha].
    split; [destruct K as (_ & _ & _ & _ & _ & K6); destruct (opt (k_alpha kw) (PScal 20)) as [r|l]; cbn [pmap par_val] in *; [reflexivity|]|].
    { cbn in K6. rewrite (nth_map_lt _ l i 0 0) by congruence. reflexivity. }
    split; [reflexivity|]. split; [reflexivity|]. split; [now rewrite A, A'|]. split; [unfold factor; now rewrite Sc, Sc'|]. split.
    + intros p. unfold pred_val, fas_of, pdmp_of. cbn. rewrite F, F'. cbn. rewrite Ef. reflexivity.
    + rewrite Go, Go'. destruct ty; try exact I; repeat split; assumption.
  - unfold same_start. rewrite Sp, Sp', Go, Go', D, D'. unfold new_spring. cbn [d_init]. unfold pad. cbn.
    split; [rewrite app_nth1 by exact Hi; reflexivity|]. split; [rewrite app_nth2 by lia; now rewrite nth_repeat|]. destruct ty; trivial; reflexivity.
  - do 6 (split; [assumption|]). split; [now rewrite G2|now rewrite G1].
Qed.
