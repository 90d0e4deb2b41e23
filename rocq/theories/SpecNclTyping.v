(** Vocabulary of C73: the keyboard that a layout of keys that act at once describes,
    without the tables of the generated keymap. *)
From Verif Require Import Base Output Types SimpleKeys Sticky Layered Composite Ncl NclCodegen SpecKeymap SpecLayer
  SpecTyping SpecNcl SpecNclBoard.
Import List.
Local Open Scope N_scope.

(** What a key that is not made of other keys means. *)
Inductive tkey_means : ukey macro -> tmeaning -> Prop :=
| tu_code c : tkey_means (UCode c) (TSends (ko_from_key_code c))
| tu_mods m : tkey_means (UMods m) (TSends (ko_from_key_modifiers m))
| tu_code_mods c m : tkey_means (UCodeMods c m) (TSends (ko_from_key_code_with_modifiers c m))
| tu_consumer c : tkey_means (UConsumer c) (TSends (ko_from_consumer_code c))
| tu_custom c : tkey_means (UCustom c) (TSends (ko_from_custom_code c))
| tu_mouse m ko : mouse_key_output m = Ok ko -> tkey_means (UMouse m) (TSends ko)
| tu_callback c : tkey_means (UCallback c) (TCalls c)
| tu_layer l : tkey_means (ULayer l) (TSwitches l)
| tu_caps : tkey_means UCapsWord TCapsWord
| tu_sticky m : tkey_means (USticky m) (TOneShot m).

(** One input, and a history of inputs; a position shows the key of its highest active
    layer ([shows], C65) at the time the input is heard. *)
Inductive layout_tstep (sr : sticky_release) (lo : layout) (b : tboard) : input_event -> tboard -> Prop :=
| lts_again i : key_down i b = true ->
    layout_tstep sr lo b (Press i) (let '(b1, es) := hear sr (Press i) b in carry_out es b1)
| lts_press i k m : key_down i b = false -> (N.to_nat i < length (lo_base lo))%nat ->
    shows lo (N.to_nat i) (tb_on (fst (hear sr (Press i) b))) (tb_default b) k -> tkey_means k m ->
    layout_tstep sr lo b (Press i) (let '(b1, es) := hear sr (Press i) b in
                                    let '(b2, es2) := key_goes_down i m b1 in carry_out (es ++ es2) b2)
| lts_release i :
    layout_tstep sr lo b (Release i) (let '(b1, es) := hear sr (Release i) b in
                                      carry_out es (down_with b1 (remove_first (key_is i) (tb_down b1))))
| lts_vpress ko : layout_tstep sr lo b (VirtualKeyPress ko) (goes_down ko b)
| lts_vrelease ko : layout_tstep sr lo b (VirtualKeyRelease ko) (goes_up ko b).
Inductive layout_trun (sr : sticky_release) (lo : layout) : list input_event -> tboard -> Prop :=
| ltr_start : layout_trun sr lo [] (tboard_new (length (lo_uppers lo)))
| ltr_input h b ie b' : layout_trun sr lo h b -> layout_tstep sr lo b ie b' -> layout_trun sr lo (h ++ [ie]) b'.

(** The inputs are of keys of the layout, and there is room for what is down. *)
Definition layout_fits (sr : sticky_release) (lo : layout) (h : list input_event) : Prop :=
  (forall i, In (Press i) h -> (N.to_nat i < length (lo_base lo))%nat)
  /\ forall h1 ie h2 b b', h = h1 ++ ie :: h2 -> layout_trun sr lo h1 b -> layout_tstep sr lo b ie b' -> room_for b ie b'.

(** The layouts concerned: keys that act at once on any layers, without chords. *)
Definition typing_key (n : nat) (k : ukey macro) : Prop :=
  (exists m, tkey_means k m) /\ (forall l, k = ULayer l -> tmodifier_ok n l).
Definition typing_layout (lo : layout) : Prop :=
  lo_chords lo = [] /\
  Forall (typing_key (length (lo_uppers lo))) (lo_base lo) /\
  Forall (Forall (fun o => forall k, o = Some k -> typing_key (length (lo_uppers lo)) k)) (lo_uppers lo) /\
  (* some layer above the base is not transparent everywhere, if there is one *)
  (lo_uppers lo = [] \/
   exists i, (i < length (lo_base lo))%nat /\ transparent (column (lo_uppers lo) i) = false).
