(** Model of [ncl/layouts/remap.ncl]: a keymap.ncl written for a keyboard of
    [source_key_count] keys is used on another keyboard. *)
From Coq Require Import String.
From Verif Require Import Base Ncl.
Import List.
Local Open Scope string_scope.
Local Open Scope N_scope.
Local Open Scope list_scope.

(** The argument [from_layout] of [into_layout], for example [from_3x5_3] in
    tests/ncl/keymap-42key-rgoulter/keymap.ncl 3-20: a function that takes apart an array
    of [n] keys and lists, for each key of the target, one of them or [no_key].  It does
    nothing else with them, so it is given here by that list: [None] is [no_key].  An array
    of another length does not match its pattern. *)
Definition from_layout {A} (n : nat) (places : list (option nat)) (no_key : A) (l : list A) : res (list A) :=
  if (length l =? n)%nat
  then map_res (fun o => match o with Some i => index l i | None => Ok no_key end) places
  else Panic.

(** remap.ncl 4-11 [remapped_indices]: pairs of the index in the target and in the source,
    [None] for [false].  The filter looks at the index in the target, which is a number,
    and keeps all of them. *)
Definition remapped_indices (n : nat) (places : list (option nat)) : res (list (N * option N)) :=
  let! l := from_layout n places None (map (fun i => Some (N.of_nat i)) (seq 0 n)) in
  Ok (filter (fun _ => true) (numbered l)).

(** remap.ncl 12-20 [remap_index]; [None] is [false]. *)
Definition remap_index (rs : list (N * option N)) (i : N) : res (option N) :=
  match filter (fun r => match snd r with Some j => j =? i | None => false end) rs with
  | [] => Ok None
  | [r] => Ok (Some (fst r))
  | _ => Panic
  end.

(** remap.ncl 21-27 [remap_chords].  A chord with [false] for an index is not a [Chord]
    (keymap-ncl-to-json.ncl 17: [Array Number]); here the remapping fails, in Nickel the
    evaluation of the remapped keymap does. *)
Definition remap_chord (rs : list (N * option N)) (c : chord_src) : res chord_src :=
  let! is := map_res (fun i => let! o := remap_index rs i in unwrap o) (cs_indices c) in
  Ok (mkChordSrc is (cs_key c)).

(** ncl/hid-usage-keyboard.ncl 4: [K.NO]. *)
Definition NO_KEY : val := VRec [("key_code", VNum 0)].

(** remap.ncl 3-49 [into_layout]: the names and the options stay; the layers become
    arrays. *)
Definition into_layout (n : nat) (places : list (option nat)) (s : keymap_src) : res keymap_src :=
  let! rs := remapped_indices n places in
  let! chords := map_res (remap_chord rs) (ks_chords s) in
  let! layers := map_res (fun l => let! ks := layer_as_array_of_keys (ks_names s) l in
                                   let! ks' := from_layout n places NO_KEY ks in
                                   Ok (LKeys ks')) (ks_layers s) in
  Ok (mkKeymapSrc (ks_names s) layers chords (ks_options s)).
