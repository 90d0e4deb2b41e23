(** Specification vocabulary for keyboards with layers (C62): the keyboard a user
    has in mind when configuring layers. *)
From Verif Require Import Base Output Types Scheduler Keymap SimpleKeys Sticky Layered Composite SpecKeymap SpecPlain SpecLayer.
Local Open Scope N_scope.

(** What a key means from its press to its release. *)
Inductive meaning :=
| Sends (ko : key_output)           (* an ordinary key *)
| Switches (m : layer_modifier)     (* a layer key *)
| Calls (cb : callback)             (* a callback key *)
| Nothing.                          (* no effect: a key of a chord other than its first (C71) *)

(** The meaning of a key while the layers [on] are active and [default] is the
    default layer: a layered key means what it is on the highest active layer
    that defines it, or else on the default layer, or else on the base layer
    ([acts_as], C25). *)
Inductive means (d : key_data) (on : N -> bool) (default : option N) : ref -> meaning -> Prop :=
| means_sends r ko : plain_key d r ko -> means d on default r (Sends ko)
| means_switches i m : nth_error (kd_layer_mods d) (N.to_nat i) = Some m -> means d on default (RLayered (LyModifier i)) (Switches m)
| means_calls i cb : nth_error (kd_callback d) (N.to_nat i) = Some cb -> means d on default (RCallback i) (Calls cb)
| means_layered i k r m : nth_error (kd_layered d) (N.to_nat i) = Some k ->
    acts_as k (fun l => on l = true) default r -> means d on default r m ->
    means d on default (RLayered (LyLayered i)) m.

(** The keyboard: what is down, in the order it went down, with what it means
    (virtual keys with their output); the active layers; the default layer. *)
Record board := mkBoard {
  bd_down : list (u16 * meaning + key_output);
  bd_on : N -> bool;
  bd_default : option N
}.
Definition board_new : board := mkBoard [] (fun _ => false) None.

(** The layers of a keyboard with [n] layers after a layer event ([layer_set_step],
    [default_step], C26). *)
Definition switch (n : nat) (e : option layer_event) (b : board) : board :=
  match e with
  | Some e => mkBoard (bd_down b) (layer_set_step (N.of_nat n) e (bd_on b)) (default_step e (bd_default b))
  | None => b
  end.
(** What pressing and releasing a key of some meaning does to the layers. *)
Definition at_press (m : meaning) : option layer_event :=
  match m with Switches lm => Some (press_effect lm) | _ => None end.
Definition at_release (m : meaning) : option layer_event :=
  match m with Switches lm => release_effect lm true | _ => None end.

Definition this_key (i : u16) (x : u16 * meaning + key_output) : bool :=
  match x with inl (j, _) => i =? j | inr _ => false end.
Definition this_virtual (ko : key_output) (x : u16 * meaning + key_output) : bool :=
  match x with inl _ => false | inr ko' => ko_eqb ko ko' end.
Definition set_down (b : board) l : board := mkBoard l (bd_on b) (bd_default b).

(** One input. *)
Inductive board_step (n : nat) (refs : list ref) (d : key_data) (b : board) : input_event -> board -> Prop :=
| press_again i : existsb (this_key i) (bd_down b) = true -> board_step n refs d b (Press i) b
| press_key i r m : existsb (this_key i) (bd_down b) = false ->
    nth_error refs (N.to_nat i) = Some r -> means d (bd_on b) (bd_default b) r m ->
    board_step n refs d b (Press i) (switch n (at_press m) (set_down b (bd_down b ++ [inl (i, m)])))
| release_key i m : In (inl (i, m)) (bd_down b) ->
    board_step n refs d b (Release i) (switch n (at_release m) (set_down b (remove_first (this_key i) (bd_down b))))
| release_again i : existsb (this_key i) (bd_down b) = false -> board_step n refs d b (Release i) b
| press_virtual ko : board_step n refs d b (VirtualKeyPress ko) (set_down b (bd_down b ++ [inr ko]))
| release_virtual ko : board_step n refs d b (VirtualKeyRelease ko) (set_down b (remove_first (this_virtual ko) (bd_down b))).

(** A history of inputs. *)
Inductive board_run (n : nat) (refs : list ref) (d : key_data) : list input_event -> board -> Prop :=
| run_start : board_run n refs d [] board_new
| run_input h b ie b' : board_run n refs d h b -> board_step n refs d b ie b' -> board_run n refs d (h ++ [ie]) b'.

(** The callbacks that an input, and a history of inputs, asks for: one for each
    press of a callback key. *)
Inductive step_calls (refs : list ref) (d : key_data) (b : board) : input_event -> list callback -> Prop :=
| sc_call i r cb : existsb (this_key i) (bd_down b) = false ->
    nth_error refs (N.to_nat i) = Some r -> means d (bd_on b) (bd_default b) r (Calls cb) ->
    step_calls refs d b (Press i) [cb]
| sc_key i r m : existsb (this_key i) (bd_down b) = false ->
    nth_error refs (N.to_nat i) = Some r -> means d (bd_on b) (bd_default b) r m -> (forall cb, m <> Calls cb) ->
    step_calls refs d b (Press i) []
| sc_again i : existsb (this_key i) (bd_down b) = true -> step_calls refs d b (Press i) []
| sc_none ie : (forall i, ie <> Press i) -> step_calls refs d b ie [].
Inductive board_calls (n : nat) (refs : list ref) (d : key_data) : list input_event -> list callback -> Prop :=
| bc_start : board_calls n refs d [] []
| bc_input h b ie cs cs' : board_run n refs d h b -> board_calls n refs d h cs -> step_calls refs d b ie cs' ->
    board_calls n refs d (h ++ [ie]) (cs ++ cs').

(** What it sends. *)
Definition board_output (b : board) : list key_output :=
  filter_map (fun x => match x with inl (_, Sends ko) => Some ko | inl _ => None | inr ko => Some ko end) (bd_down b).

(** The same keyboard. *)
Definition same_board (b1 b2 : board) : Prop :=
  bd_down b1 = bd_down b2 /\ (forall l, bd_on b1 l = bd_on b2 l) /\ bd_default b1 = bd_default b2.

(** *** The keymaps concerned: ordinary keys, callback keys, layer keys other than
    sticky ones, and layered keys of these, nested at most [h] deep; all
    references into the key data and all layer numbers are valid. *)
Definition modifier_ok (n : nat) (m : layer_modifier) : Prop :=
  match m with
  | LmHold l | LmToggle l => 1 <= l <= N.of_nat n
  | LmDefault l => l <= N.of_nat n
  | LmSetActiveLayers _ => True
  | LmSticky _ => False
  end.
Inductive board_key (n : nat) (d : key_data) : nat -> ref -> Prop :=
| bk_plain h r ko : plain_key d r ko -> board_key n d h r
| bk_modifier h i m : nth_error (kd_layer_mods d) (N.to_nat i) = Some m -> modifier_ok n m ->
    board_key n d h (RLayered (LyModifier i))
| bk_callback h i cb : nth_error (kd_callback d) (N.to_nat i) = Some cb -> board_key n d h (RCallback i)
| bk_layered h i k : nth_error (kd_layered d) (N.to_nat i) = Some k -> length (lk_layered k) = n ->
    board_key n d h (lk_base k) -> (forall r, In (Some r) (lk_layered k) -> board_key n d h r) ->
    board_key n d (S h) (RLayered (LyLayered i)).

(** Before the keyboard is used it is initialised, any number of times, and
    callbacks are registered, for at most two of the callbacks of the keymap. *)
Definition registers_two (setup : list op) : Prop :=
  exists a b, Forall (fun o => o = OpInit \/ exists f, o = OpSetCallback a f \/ o = OpSetCallback b f) setup.
