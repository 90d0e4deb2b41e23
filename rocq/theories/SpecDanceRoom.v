(** Specification vocabulary for the room a keyboard with tap-dance keys needs in
    order to keep running (C76). *)
From Verif Require Import Base Output Types Scheduler Keymap SimpleKeys TapDance Layered Composite SpecKeymap SpecPlain SpecLayer SpecBoard SpecTapBoard SpecDanceBoard.
Local Open Scope N_scope.

(** The keys and virtual keys that are down, with the key that dances. *)
Definition keys_held (s : dancing) : down :=
  map (fun x => match x with inl (i, _) => inl i | inr ko => inr ko end) (bd_down (da_board s)) ++ match da_dance s with Some dn => [inl (dn_key dn)] | None => [] end.
(** The input that the call takes, if it takes one. *)
Definition next_input (s : dancing) (o : op) : option input_event :=
  if da_busy s then None else
  match o with
  | OpInput x => if (length (da_waiting s) <? 31)%nat then hd_error (da_waiting s ++ [x]) else None
  | OpTick => hd_error (da_waiting s)
  | _ => None
  end.
(** There is room for the call: when no dance goes on, the input that it takes presses
    one of the [nkeys] keys, and leaves no more than 16 keys down, nor more than the
    chord context can track; and when a dance goes on, no more than 16 inputs have
    been made since it began. *)
Definition room (nkeys max_tracked : nat) (s : dancing) (o : op) : Prop :=
  match da_dance s with
  | None => forall x, next_input s o = Some x ->
      (forall i, x = Press i -> (N.to_nat i < nkeys)%nat)
      /\ let l := down_step (keys_held s) x in
         (length l <= 16)%nat /\ (max_tracked = O \/ (length (keys_down l) <= max_tracked)%nat)
  | Some dn => (length (dn_seen dn) + length (da_waiting s) + match o with OpInput _ => 1 | _ => 0 end <= 16)%nat
  end.
(** Presses were taken at 32 different times within the last [timeout]. *)
Definition hectic (n : nat) (refs : list ref) (d : key_data) (timeout : N) (ops : list op) : Prop :=
  exists times : list N, length times = 32%nat /\ NoDup times
  /\ forall t, In t times -> now_after ops <= t + timeout
     /\ exists a o z s i, ops = a ++ o :: z /\ now_after a = t /\ prompt_run n refs d timeout a s /\ next_input s o = Some (Press i).
