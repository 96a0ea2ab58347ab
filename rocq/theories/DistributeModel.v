(** Model of the distribution of units over values:
    measurable.py 351-428, [parse_measurable] with [distribute=True]. *)

From Coq Require Import String Ascii List Bool ZArith.
From Verif Require Import Py IterablesModel MeasurableModel.
Import ListNotations.
Open Scope list_scope.
Open Scope nat_scope.
Open Scope py_scope.

Section Distributing.
(** As in MeasurableModel.v. *)
Variable is_unity : obj -> res bool.
Variable show : obj -> str.

(** [x[:-1]]: a text without its last character, or a sequence of the same
    kind without its last member.  Used for measurable.py 351-397. *)
Definition but_last (o : obj) : obj :=
  match o with
  | OStr s => OStr (removelast s)
  | OSeq k l => OSeq k (removelast l)
  | x => x
  end.

(** measurable.py 351-397 and 407-428, [parse_measurable], [_wrap_measurable] and
    [_callback_parse] with [distribute=True]: pairs of values and units; [None]
    is Python's implicit [None], over which Python cannot iterate.
    Simplification: as for [MeasurableModel.parse_measurable]. *)
Fixpoint parse_distributed (fuel : nat) (args : obj) : res (option (list (obj * obj))) :=
  match fuel with
  | O => Err OutOfFuel
  | S fuel' =>
      let o := unwrap args in
      if missing o then Err UnmeasurableError
      else if is_num o then Ok (Some [(o, OStr (lit "1"))])
      else
        let items := MeasurableModel.iterate o in
        if Nat.ltb 1 (length (filter is_str items)) then Err MeasuringTypeError
        else if forallb is_num items then rmap Some (distribute o (OStr (lit "1")))
        else if forallb is_whole items then
          do parsed <- mapM (fun arg => do r <- parse_distributed fuel' arg;
                                        match r with Some l => Ok l | None => Err TypeError end) items;
          Ok (Some (concat parsed))
        else
          do unit <- ensure_unit is_unity show items;
          if forallb is_num (removelast items) then rmap Some (distribute (but_last o) (OStr unit))
          else match items with
               | OSeq k l :: _ => rmap Some (distribute (OSeq k l) (OStr unit))
               | _ => Ok None
               end
  end.
End Distributing.
