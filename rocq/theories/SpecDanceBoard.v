(** Specification vocabulary for keyboards with layers and tap-dance keys (C76):
    the keyboard of SpecBoard.v, with keys that become one of several keys,
    depending on how often they are tapped, driven by the calls of the firmware. *)
From Verif Require Import Base Output Types Scheduler Keymap SimpleKeys TapDance Layered Composite SpecKeymap SpecPlain SpecLayer SpecBoard SpecTapBoard.
Local Open Scope N_scope.

(** The key [r] is, under the layers, a tap-dance key with these choices. *)
Inductive dances (d : key_data) (on : N -> bool) (default : option N) : ref -> list ref -> Prop :=
| dances_key q choices pad : nth_error (kd_tap_dance d) (N.to_nat q) = Some (map Some choices ++ repeat None pad) ->
    dances d on default (RTapDance q) choices
| dances_layered i k r choices : nth_error (kd_layered d) (N.to_nat i) = Some k ->
    acts_as k (fun l => on l = true) default r -> dances d on default r choices ->
    dances d on default (RLayered (LyLayered i)) choices.

(** A dance: the key, its choices, the inputs seen since it was first pressed, and
    the time at which it ends if the key is not pressed again. *)
Record dance := mkDance { dn_key : u16; dn_choices : list ref; dn_seen : list input_event; dn_due : N }.
(** The keyboard: the keys that are down and the layers; the dance, if there is one;
    the inputs that wait to be taken; whether it is too soon to take the next one;
    the callbacks asked for so far. *)
Record dancing := mkDancing {
  da_board : board;
  da_dance : option dance;
  da_waiting : list input_event;
  da_busy : bool;
  da_calls : list callback
}.
Definition dancing_new : dancing := mkDancing board_new None [] false [].

Definition presses_key (i : u16) (x : input_event) : bool := match x with Press j => i =? j | _ => false end.
Definition about_key (i : u16) (x : input_event) : bool := match x with Press j | Release j => i =? j | _ => false end.
(** How often the key was pressed again. *)
Definition taps (i : u16) (seen : list input_event) : nat := length (filter (presses_key i) seen).
(** The inputs seen during a dance wait again when it is over, those about other
    keys before the last one about the key itself; the others are spent. *)
Definition last_one {A} (l : list A) : list A := match rev l with x :: _ => [x] | [] => [] end.
Definition wait_again (i : u16) (seen : list input_event) : list input_event :=
  filter (fun x => negb (about_key i x)) seen ++ last_one (filter (about_key i) seen).

Section Machine.
Variables (n : nat) (refs : list ref) (d : key_data) (timeout : N).

(** The dance ends with the choice number [c], which goes down. *)
Inductive becomes (s : dancing) (dn : dance) (c : nat) : dancing -> Prop :=
| becomes_choice r m : nth_error (dn_choices dn) c = Some r -> means d (bd_on (da_board s)) (bd_default (da_board s)) r m ->
    becomes s dn c (mkDancing
      (switch n (at_press m) (set_down (da_board s) (bd_down (da_board s) ++ [inl (dn_key dn, m)])))
      None (wait_again (dn_key dn) (dn_seen dn) ++ da_waiting s) (da_busy s) (da_calls s ++ asks m)).

(** The first of the waiting inputs is taken at the time [now]. *)
Inductive takes (now : N) (s : dancing) : dancing -> Prop :=
| takes_nothing : da_waiting s = [] -> takes now s s
| takes_key x w b' cs : da_dance s = None -> da_waiting s = x :: w ->
    board_step n refs d (da_board s) x b' -> step_calls refs d (da_board s) x cs ->
    takes now s (mkDancing b' None w true (da_calls s ++ cs))
| takes_dance i w r choices : da_dance s = None -> da_waiting s = Press i :: w ->
    existsb (this_key i) (bd_down (da_board s)) = false ->
    nth_error refs (N.to_nat i) = Some r -> dances d (bd_on (da_board s)) (bd_default (da_board s)) r choices ->
    takes now s (mkDancing (da_board s) (Some (mkDance i choices [] (now + timeout))) w true (da_calls s))
| takes_on i choices seen due x w : da_dance s = Some (mkDance i choices seen due) -> da_waiting s = x :: w ->
    (taps i (seen ++ [x]) + 1 < length choices)%nat ->
    takes now s (mkDancing (da_board s)
      (Some (mkDance i choices (seen ++ [x]) (if presses_key i x then now + timeout else due))) w true (da_calls s))
| takes_last i choices seen due x w s' : da_dance s = Some (mkDance i choices seen due) -> da_waiting s = x :: w ->
    (length choices <= taps i (seen ++ [x]) + 1)%nat ->
    becomes (mkDancing (da_board s) None w true (da_calls s)) (mkDance i choices (seen ++ [x]) due) (length choices - 1) s' ->
    takes now s s'.
Definition turn (now : N) (s s' : dancing) : Prop := if da_busy s then s' = s else takes now s s'.

(** The time may be up: the choice is then the one for the number of taps so far. *)
Inductive passes (now : N) (s : dancing) : bool -> dancing -> Prop :=
| passes_not : passes now s false s
| passes_up dn s' : da_dance s = Some dn -> dn_due dn <= now ->
    becomes s dn (taps (dn_key dn) (dn_seen dn)) s' -> passes now s true s'.

Definition heard (s : dancing) (x : input_event) : dancing :=
  mkDancing (da_board s) (da_dance s) (da_waiting s ++ [x]) (da_busy s) (da_calls s).
Definition rested (s : dancing) : dancing :=
  mkDancing (da_board s) (da_dance s) (da_waiting s) false (da_calls s).
Definition now_after (ops : list op) : N := ck_now (clocks_run ops).

(** One call, after the calls [before]; whether the time is up in it. *)
Inductive dance_call (before : list op) (s : dancing) : op -> bool -> dancing -> Prop :=
| dc_full x : (31 <= length (da_waiting s))%nat -> dance_call before s (OpInput x) false s
| dc_input x s' : (length (da_waiting s) < 31)%nat -> turn (now_after before) (heard s x) s' -> dance_call before s (OpInput x) false s'
| dc_tick s1 up s2 : turn (now_after before) s s1 -> passes (now_after (before ++ [OpTick])) (rested s1) up s2 -> dance_call before s OpTick up s2
| dc_report : dance_call before s OpReport false s
| dc_set_ms ms : dance_call before s (OpSetMs ms) false s.

(** The calls so far; the times that were up, call by call. *)
Inductive dance_run : list op -> list bool -> dancing -> Prop :=
| dr_start : dance_run [] [] dancing_new
| dr_call ops ups s o up s' : dance_run ops ups s -> dance_call ops s o up s' -> dance_run (ops ++ [o]) (ups ++ [up]) s'.

(** The same keyboard, where no dance goes on after its time. *)
Inductive prompt_run : list op -> dancing -> Prop :=
| pr_start : prompt_run [] dancing_new
| pr_call ops s o up s' : prompt_run ops s -> dance_call ops s o up s' ->
    (forall dn, da_dance s' = Some dn -> now_after (ops ++ [o]) < dn_due dn) -> prompt_run (ops ++ [o]) s'.
End Machine.

(** The keymaps concerned: the keys of [board_key], tap-dance keys with between 1
    and 256 such keys as choices, and layered keys of these. *)
Inductive dance_board_key (n : nat) (d : key_data) : nat -> ref -> Prop :=
| db_key h r : board_key n d h r -> dance_board_key n d h r
| db_dance h q choices pad : nth_error (kd_tap_dance d) (N.to_nat q) = Some (map Some choices ++ repeat None pad) ->
    (1 <= length choices <= 256)%nat -> Forall (board_key n d h) choices -> dance_board_key n d (S h) (RTapDance q)
| db_layered h i k : nth_error (kd_layered d) (N.to_nat i) = Some k -> length (lk_layered k) = n ->
    dance_board_key n d h (lk_base k) -> (forall r, In (Some r) (lk_layered k) -> dance_board_key n d h r) ->
    dance_board_key n d (S h) (RLayered (LyLayered i)).

(** The same keyboard. *)
Definition same_dancing (s1 s2 : dancing) : Prop :=
  same_board (da_board s1) (da_board s2) /\ da_dance s1 = da_dance s2 /\ da_waiting s1 = da_waiting s2
  /\ da_busy s1 = da_busy s2 /\ da_calls s1 = da_calls s2.
