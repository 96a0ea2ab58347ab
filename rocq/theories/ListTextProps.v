(** Properties of reading a text as a list of numbers. *)

From Coq Require Import String Ascii List Bool ZArith QArith Qcanon Lia.
From Verif Require Import Py RuntimeModel PackageSpec ListTextSpec ListTextProofs.
Import ListNotations.
Open Scope list_scope.

(** ** C335: texts as lists *)

(** A text is a list exactly when it begins with an opening and ends with a
    closing bracket and has, between brackets, numerals separated by commas;
    it is then the list of the numbers written. *)
Theorem C335_lists : forall s l, string_to_list s = Some l <->
  (exists r, s = "["%char :: r) /\ (exists r, s = r ++ ["]"%char])
  /\ exists before ms after, s = before ++ commas (map member_text ms) ++ after
     /\ brackets before /\ brackets after /\ Forall member_ok ms /\ l = map member_value ms.
Proof. exact list_text. Qed.
Print Assumptions C335_lists.

(** As the value of a parameter: a list, or the text itself if it is none. *)
Theorem C335_parameter : forall s,
  (forall ms, Forall member_ok ms -> convert (lit "[" ++ commas (map member_text ms) ++ lit "]") TList = RList (map member_value ms))
  /\ ((forall r, s <> "["%char :: r) \/ (forall r, s <> r ++ ["]"%char]) -> convert s TList = RStr s).
Proof.
  intros s. split.
  - intros ms M. unfold convert. assert (string_to_list (lit "[" ++ commas (map member_text ms) ++ lit "]") = Some (map member_value ms)) as ->; [|reflexivity].
    apply list_text. split; [eexists; reflexivity|]. split; [exists (lit "[" ++ commas (map member_text ms)); now rewrite <- app_assoc|].
    exists (lit "["), ms, (lit "]"). split; [reflexivity|]. split; [repeat constructor|]. split; [constructor; [now right|constructor]|]. auto.
  - intros H. unfold convert. destruct (string_to_list s) as [l|] eqn:E; [|reflexivity]. exfalso.
    apply list_text in E as ((r & E1) & (r' & E2) & _). destruct H as [H|H]; [exact (H _ E1)|exact (H _ E2)].
Qed.
Print Assumptions C335_parameter.

Example C335_meets :
  let m := (lit " '", mkDecimal None (lit "4") (Some (lit "5")) None, lit "' ") in
  member_ok m /\ lit "[" ++ commas (map member_text [m; m]) ++ lit "]" = lit "[ '4.5' , '4.5' ]"
  /\ string_to_list (lit "[[1, 2]") = Some [1; Qc_of_Z 2]%Qc.
Proof.
  cbv zeta. split; [|split; [reflexivity|vm_compute; reflexivity]].
  split; [|split].
  - split; [repeat constructor; vm_compute; tauto|]. split; [|exact I]. split; [repeat constructor; vm_compute; tauto|left; discriminate].
  - exists (lit " '"), []. split; [reflexivity|]. split; [|constructor]. constructor; [now left|]. constructor; [now right|constructor].
  - exists [], (lit "' "). split; [reflexivity|]. split; [constructor|]. constructor; [now right|]. constructor; [now left|constructor].
Qed.
