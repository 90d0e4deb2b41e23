(** Vocabulary of C81: a tap-dance key that is tapped several times and then held. *)
From Verif Require Import Base Types Keymap SpecKeymap.
Local Open Scope N_scope.

(** The key is pressed and held for some ticks; then, for each pair of [again], it is
    released for some ticks, and pressed and held for some ticks. *)
Fixpoint tapping (i : u16) (held : nat) (again : list (nat * nat)) : list op :=
  OpInput (Press i) :: repeat OpTick held ++
  match again with
  | [] => []
  | (up, down) :: rest => OpInput (Release i) :: repeat OpTick up ++ tapping i down rest
  end.

(** Each of these presses is less than the timeout after the one before (a tick is [ms]
    milliseconds), and there is a tick between any two inputs. *)
Fixpoint in_time (timeout ms : N) (held : nat) (again : list (nat * nat)) : Prop :=
  match again with
  | [] => True
  | (up, down) :: rest => (1 <= held)%nat /\ (1 <= up)%nat /\ N.of_nat (held + up) * ms < timeout /\ in_time timeout ms down rest
  end.

(** How long the last press is held. *)
Definition last_held (held : nat) (again : list (nat * nat)) : nat := last (map snd again) held.
