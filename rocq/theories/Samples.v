(** A sample composite keymap, used only by the examples and witnesses. *)
From Verif Require Import Base Output Types Scheduler Keymap SimpleKeys TapHold TapDance Sticky CapsWord
  Layered Automation Chorded Composite SpecComposite.
Local Open Scope N_scope.

Definition kA := RKeyboard (KbKeyCode 4).
Definition kB := RKeyboard (KbKeyCode 5).
Definition kC := RKeyboard (KbKeyCode 6).
Definition kD := RKeyboard (KbKeyCode 7).
Definition kLCtrl := RKeyboard (KbKeyCode 224).
Definition out (n : N) : key_output := ko_from_key_code n.

Definition sample_data : key_data :=
  mkData
    [mkAutoKey (mkExec 0 2) (mkExec 2 0) (mkExec 2 0); mkAutoKey (mkExec 0 2) (mkExec 2 0) (mkExec 3 1)]
    [CbResetToBootloader; CbCustom 1 2; CbReset]
    [mkChordedKey [(0, kC)] kA] [mkChordedAux kB]
    [] [LmHold 1; LmToggle 1; LmSticky 1; LmDefault 1; LmHold 2]
    [mkLayeredKey kC [Some kD; None; None]; mkLayeredKey kA [None; Some (RLayered (LyLayered 0)); None]]
    [mkStickyKey 2; mkStickyKey 1]
    [[Some kA; Some kB; Some kC]; [Some (RTapHold 0); Some kB]]
    [mkTapHold kA kLCtrl].
Definition sample_refs : list ref :=
  [kA; kB; RTapHold 0; RLayered (LyModifier 0); RLayered (LyLayered 0);
   RSticky 0; RCapsWord; RCallback 0; RAutomation 0; RLayered (LyModifier 1);
   RTapDance 1; RCallback 1; RConsumer (CnUsageCode 9); RCustom (CsCode 3); RMouse (MsButton 1);
   RChorded (ChChorded 0); RChorded (ChAuxiliary 0); RTapDance 0; RCallback 2; RAutomation 1;
   RSticky 1] ++ map (fun n => RKeyboard (KbKeyCode n)) [10; 11; 12; 13; 14; 15; 16; 17; 18; 19; 20; 21; 22; 23; 24; 25; 26; 27].
Definition sample_config : config :=
  mkConfig (mkAutoConfig [InTap (out 4); InTap (out 5); InNoOp; InPress (out 6)] 10)
           (mkChConfig 200 [[15; 16]] None 4 16 32)
           sticky_config_default tapdance_config_default taphold_config_default 3.
Definition sample_ctx : cctx := ctx_from_config sample_config.
Definition sample : kconf ref cctx cev cpks cks := cconf sample_refs sample_data bs_std false.
Definition sample_dbg : kconf ref cctx cev cpks cks := cconf sample_refs sample_data bs_std true.

(** The same without the tap-dance key that can become a tap-hold key. *)
Definition flat_data : key_data :=
  mkData (kd_automation sample_data) (kd_callback sample_data) (kd_chorded sample_data)
    (kd_chorded_aux sample_data) [] (kd_layer_mods sample_data) (kd_layered sample_data)
    (kd_sticky sample_data) [[Some kA; Some kB; Some kC]; [Some kA; Some kB]] [mkTapHold kA kLCtrl].
Definition flat : kconf ref cctx cev cpks cks := cconf sample_refs flat_data bs_std false.

(** Only keys that take effect at once. *)
Definition plain_refs : list ref :=
  [kA; kB; RLayered (LyLayered 1); RLayered (LyModifier 0); RLayered (LyLayered 0);
   RSticky 0; RCapsWord; RCallback 0; RAutomation 0; RLayered (LyModifier 1)].
Definition plain_sample : kconf ref cctx cev cpks cks := cconf plain_refs sample_data bs_std false.

(** The sample with a tap-hold timeout of 8 ms. *)
Definition quick_config : config :=
  mkConfig (cf_automation sample_config) (cf_chorded sample_config) sticky_config_default
    tapdance_config_default (mkTHConfig 8 IrIgnore None) 3.

(** Pressed and released now. *)
Definition P (i : u16) : op := OpInput (Press i).
Definition Rl (i : u16) : op := OpInput (Release i).
Definition ticks (n : nat) : list op := repeat OpTick n.
