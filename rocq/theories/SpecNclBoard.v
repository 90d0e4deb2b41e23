(** Vocabulary of C65: the keyboard that a layout describes, without the tables
    of the generated keymap. *)
From Verif Require Import Base Output Types SimpleKeys Sticky Layered Composite Ncl NclCodegen SpecKeymap SpecLayer
  SpecBoard SpecNcl.
Import List.
Local Open Scope N_scope.

(** What a key that is not made of other keys means. *)
Inductive key_means : ukey macro -> meaning -> Prop :=
| km_code c : key_means (UCode c) (Sends (ko_from_key_code c))
| km_mods m : key_means (UMods m) (Sends (ko_from_key_modifiers m))
| km_code_mods c m : key_means (UCodeMods c m) (Sends (ko_from_key_code_with_modifiers c m))
| km_consumer c : key_means (UConsumer c) (Sends (ko_from_consumer_code c))
| km_custom c : key_means (UCustom c) (Sends (ko_from_custom_code c))
| km_mouse m ko : mouse_key_output m = Ok ko -> key_means (UMouse m) (Sends ko)
| km_callback c : key_means (UCallback c) (Calls c)
| km_layer l : key_means (ULayer l) (Switches l).

(** The key that layer [l] (from 1) has at position [i]. *)
Definition on_layer_is (lo : layout) (i : nat) (l : N) (k : ukey macro) : Prop :=
  1 <= l /\ exists row, nth_error (lo_uppers lo) (N.to_nat (l - 1)) = Some row /\ nth_error row i = Some (Some k).

(** The key that position [i] shows while the layers [on] are active: that of the
    highest active layer that is not transparent there, else that of the default
    layer, else that of the base layer. *)
Inductive shows (lo : layout) (i : nat) (on : N -> bool) (default : option N) : ukey macro -> Prop :=
| shows_layer l k : on l = true -> on_layer_is lo i l k ->
    (forall l' k', on l' = true -> on_layer_is lo i l' k' -> l' <= l) -> shows lo i on default k
| shows_default l k : (forall l' k', on l' = true -> ~ on_layer_is lo i l' k') ->
    default = Some l -> on_layer_is lo i l k -> shows lo i on default k
| shows_base k : (forall l' k', on l' = true -> ~ on_layer_is lo i l' k') ->
    (forall l k', default = Some l -> ~ on_layer_is lo i l k') ->
    nth_error (lo_base lo) i = Some k -> shows lo i on default k.

(** One input, and a history of inputs; the keyboard has as many layers as the
    layout has above its base. *)
Inductive layout_step (lo : layout) (b : board) : input_event -> board -> Prop :=
| ls_press_again i : existsb (this_key i) (bd_down b) = true -> layout_step lo b (Press i) b
| ls_press i k m : existsb (this_key i) (bd_down b) = false -> (N.to_nat i < length (lo_base lo))%nat ->
    shows lo (N.to_nat i) (bd_on b) (bd_default b) k -> key_means k m ->
    layout_step lo b (Press i)
      (switch (length (lo_uppers lo)) (at_press m) (set_down b (bd_down b ++ [inl (i, m)])))
| ls_release i m : In (inl (i, m)) (bd_down b) ->
    layout_step lo b (Release i)
      (switch (length (lo_uppers lo)) (at_release m) (set_down b (remove_first (this_key i) (bd_down b))))
| ls_release_again i : existsb (this_key i) (bd_down b) = false -> layout_step lo b (Release i) b
| ls_press_virtual ko : layout_step lo b (VirtualKeyPress ko) (set_down b (bd_down b ++ [inr ko]))
| ls_release_virtual ko : layout_step lo b (VirtualKeyRelease ko) (set_down b (remove_first (this_virtual ko) (bd_down b))).
Inductive layout_run (lo : layout) : list input_event -> board -> Prop :=
| lr_start : layout_run lo [] board_new
| lr_input h b ie b' : layout_run lo h b -> layout_step lo b ie b' -> layout_run lo (h ++ [ie]) b'.

(** The callbacks asked for: one for each press of a callback key. *)
Inductive layout_step_calls (lo : layout) (b : board) : input_event -> list callback -> Prop :=
| lc_call i cb : existsb (this_key i) (bd_down b) = false -> (N.to_nat i < length (lo_base lo))%nat ->
    shows lo (N.to_nat i) (bd_on b) (bd_default b) (UCallback cb) -> layout_step_calls lo b (Press i) [cb]
| lc_key i k : existsb (this_key i) (bd_down b) = false -> (N.to_nat i < length (lo_base lo))%nat ->
    shows lo (N.to_nat i) (bd_on b) (bd_default b) k -> (forall cb, k <> UCallback cb) -> layout_step_calls lo b (Press i) []
| lc_again i : existsb (this_key i) (bd_down b) = true -> layout_step_calls lo b (Press i) []
| lc_none ie : (forall i, ie <> Press i) -> layout_step_calls lo b ie [].
Inductive layout_calls (lo : layout) : list input_event -> list callback -> Prop :=
| ly_start : layout_calls lo [] []
| ly_input h b ie cs cs' : layout_run lo h b -> layout_calls lo h cs -> layout_step_calls lo b ie cs' ->
    layout_calls lo (h ++ [ie]) (cs ++ cs').

(** The layouts concerned: ordinary keys, callback keys and layer keys (other than
    sticky ones) on any layers, without chords. *)
Definition simple_key (n : nat) (k : ukey macro) : Prop :=
  (exists m, key_means k m) /\ (forall l, k = ULayer l -> modifier_ok n l).
Definition simple_layout (lo : layout) : Prop :=
  lo_chords lo = [] /\
  Forall (simple_key (length (lo_uppers lo))) (lo_base lo) /\
  Forall (Forall (fun o => forall k, o = Some k -> simple_key (length (lo_uppers lo)) k)) (lo_uppers lo) /\
  (* some layer above the base is not transparent everywhere, if there is one *)
  (lo_uppers lo = [] \/
   exists i, (i < length (lo_base lo))%nat /\ transparent (column (lo_uppers lo) i) = false).
