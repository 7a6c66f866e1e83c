From Coq Require Import String.
From Verif Require Import Base BaseLemmas ParamModel ParamSpec ParamProofs.
Open Scope string_scope.

(** locally weighted regression with two basis functions *)
Definition ex_lwr sel : fa :=
  Fa [("centers", PArr (Arr [2; 1]%nat [0; 1]%R)); ("widths", PArr (Arr [2; 1]%nat [1; 1]%R));
      ("offsets", PArr (Arr [2; 1]%nat [3; 4]%R)); ("slopes", PArr (Arr [2; 1]%nat [5; 6]%R))] (Some 1%nat) sel.
Lemma ex_lwr_selectable : selectable (ex_lwr (Some ["slopes"; "offsets"])).
Proof.
  split; [reflexivity|]. exists ["slopes"; "offsets"]. split; [reflexivity|].
  split; [repeat constructor; cbn; intuition discriminate|].
  repeat constructor; eexists; (split; [reflexivity|]); (split; [discriminate|reflexivity]).
Qed.
(** a least-squares model trained on one-dimensional targets: beta[-1] is a numpy scalar
    (FunctionApproximatorWLS.py:86) *)
Definition ex_wls : fa :=
  Fa [("slope", PArr (Arr [1]%nat [2]%R)); ("offset", PArr (Arr [] [3]%R))] (Some 1%nat) (Some ["slope"; "offset"]).
Definition ex_dmp sel : pdmp :=
  Pdmp (Some [ex_lwr (Some ["slopes"; "offsets"]); new_fa ["slopes"]; ex_lwr (Some ["slopes"; "offsets"])]) sel [7; 8; 9]%R 3.
Lemma ex_dmp_selectable sel : selectable_dmp (ex_dmp sel).
Proof.
  split; [|reflexivity]. unfold fas_of. cbn [p_fas ex_dmp].
  apply Forall_cons; [intros _; apply ex_lwr_selectable|]. apply Forall_cons; [discriminate|].
  apply Forall_cons; [intros _; apply ex_lwr_selectable|constructor].
Qed.
Definition ex_sdmp : sdmp := Sdmp (ex_dmp ["goal"]) [ex_lwr (Some ["offsets"])].
Lemma ex_sdmp_selectable : selectable_sdmp ex_sdmp.
Proof.
  split; [apply ex_dmp_selectable|]. apply Forall_cons; [intros _|constructor]. split; [reflexivity|].
  exists ["offsets"]. split; [reflexivity|]. split; [repeat constructor; cbn; tauto|].
  repeat constructor; eexists; (split; [reflexivity|]); (split; [discriminate|reflexivity]).
Qed.
Definition ex_unselected : pdmp := Pdmp (Some [ex_lwr None]) [] [7]%R 1.
