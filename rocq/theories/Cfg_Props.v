(** C100: what a saved configuration is worth when loaded again. *)
From Coq Require Import List Bool ZArith String Floats.SpecFloat.
From Verif Require Import Base Cfg_Model Cfg_Spec Cfg_Proofs.
Import ListNotations.
Local Open Scope string_scope.

(** A small but complete configuration: a waveform with its processing steps. *)
Definition a_waveform : val :=
  VObj "RootRaisedCosineWaveform"
    [("modulation_order", VInt 16); ("synchronization", VObj "CorrelationSynchronization"
        [("threshold", VFloat f_one); ("guard_ratio", VFloat f_zero); ("peak_prominence", VFloat f_one)]);
     ("channel_estimation", VObj "ChannelEstimation" []);
     ("channel_equalization", VObj "ChannelEqualization" []);
     ("num_preamble_symbols", VInt 2); ("num_data_symbols", VInt 100); ("num_postamble_symbols", VInt 0);
     ("guard_interval", VFloat f_zero); ("pilot_rate", VInt 10);
     ("pilot_symbol_sequence", VObj "CustomPilotSymbolSequence"
        [("pilot_symbols", VArr Complex128 [1%nat] [f_one; f_zero])]);
     ("repeat_pilot_symbol_sequence", VInt 0); ("relative_bandwidth", VFloat f_one);
     ("roll_off", VFloat f_one); ("filter_length", VInt 16)].
Definition a_modem (encoders : list val) : val :=
  VObj "TransmittingModem"
    [("carrier_frequency", VFloat (of_Z 1000000000)); ("selected_transmit_ports", VArr Int64 [2%nat] [f_zero; f_one]);
     ("encoders", VSeq encoders); ("waveform", a_waveform);
     ("frame_generator", VObj "FrameGeneratorStub" []); ("allow_padding", VInt 0); ("seed", VInt 42);
     ("bits_source", VObj "RandomBitsSource" [("seed", VInt 7)])].
Definition a_repetition : val := VObj "RepetitionEncoder" [("bit_block_size", VInt 8); ("repetitions", VInt 3)].
Definition an_ldpc : val := VObj "LDPCCoding"
  [("num_iterations", VInt 10); ("h_path", VStr "h.alist"); ("g_path", VStr ""); ("syndrome_checking", VInt 1);
   ("min_num_iterations", VInt 1)].
Definition a_cfar : val := VObj "CFARDetector"
  [("num_training_cells", VArr Int64 [2%nat] [f_one; f_one]); ("num_guard_cells", VArr Int64 [2%nat] [f_zero; f_zero]);
   ("pfa", VFloat f_one)].

(** Every object whose fields hold values of their types is saved without an
    exception, and loading it as any of its base classes yields exactly the
    object [restored] describes. *)
Theorem C100_restored : forall b v, holds b v ->
  exists file, save table v = Ok file /\ load table file b = Ok (restored v).
Proof. intros b v H. now apply saved_and_loaded. Qed.
Print Assumptions C100_restored.
Example C100_restored_met : holds "Transmitter" (a_modem [a_repetition]).
Proof. vm_compute. reflexivity. Qed.

(** In particular an object none of whose fields, at any depth, is listed in
    [fates] comes back identical. *)
Theorem C100_unchanged : forall b v, holds b v -> untouched v = true ->
  exists file, save table v = Ok file /\ load table file b = Ok v.
Proof.
  intros b v H U. destruct (saved_and_loaded v b H) as (l & S & L). exists l. split; auto.
  now rewrite (untouched_restored v U) in L.
Qed.
Print Assumptions C100_unchanged.
Example C100_unchanged_met : holds "RadarDetector" a_cfar /\ untouched a_cfar = true.
Proof. split; vm_compute; reflexivity. Qed.

(** Fields the file does not carry come back as a constant: whatever the user
    configured there is silently lost. *)
Theorem C100_lost : forall b c fs f u d, holds b (VObj c fs) -> assoc f fs = Some u ->
  fate_of c f = Reset d ->
  exists file gs, save table (VObj c fs) = Ok file /\ load table file b = Ok (VObj c gs) /\ assoc f gs = Some d.
Proof.
  intros b c fs f u d H A F. destruct (saved_and_loaded _ b H) as (l & S & L).
  exists l, (restored_fields c fs). repeat split; auto.
  rewrite restored_assoc, A. cbn [option_map]. now rewrite F.
Qed.
Print Assumptions C100_lost.
Example C100_lost_met :
  holds "Transmitter" (a_modem [a_repetition]) /\
  fate_of "TransmittingModem" "allow_padding" = Reset (VInt 1) /\
  fate_of "TransmittingModem" "seed" = Reset VNone /\
  fate_of "SimulatedDevice" "antennas" = Reset one_ideal_antenna.
Proof. repeat split; vm_compute; reflexivity. Qed.

(** Saving and loading what was loaded changes nothing any more. *)
Theorem C100_stable : forall b v, holds b v ->
  holds b (restored v) /\
  exists file, save table (restored v) = Ok file /\ load table file b = Ok (restored v).
Proof.
  intros b v H. pose proof (holds_restored v b H) as H'. split; auto.
  destruct (saved_and_loaded _ b H') as (l & S & L). exists l. split; auto. now rewrite restored_twice in L.
Qed.
Print Assumptions C100_stable.
Example C100_stable_met : holds "CommunicationWaveform" a_waveform /\ restored a_waveform <> a_waveform.
Proof. split; [vm_compute; reflexivity | vm_compute; discriminate]. Qed.

(** Objects of classes missing from the registry cannot be saved, nor can any
    sequence containing one (as in a drop of a scenario with delay channels). *)
Theorem C100_unregistered_refuted : forall c fs, In c unknown_classes ->
  save table (VObj c fs) = Raise RuntimeError /\
  forall before after ls, collect (map (save table) before) = Ok ls ->
    save table (VSeq (before ++ VObj c fs :: after)) = Raise RuntimeError.
Proof.
  intros c fs I.
  assert (E : save table (VObj c fs) = Raise RuntimeError).
  { assert (Q : match find_class table c with Some k => s_registered k | None => false end = false).
    { repeat (destruct I as [<-|I]; [reflexivity|]). destruct I. }
    cbn [save]. destruct (find_class table c) as [k|]; auto. now rewrite Q. }
  split; auto. intros before after. cbn [save].
  induction before as [|v t IH]; intros ls H; cbn [app map collect] in *.
  - now rewrite E.
  - destruct (save table v) as [x|]; cbn [bind] in *; [|discriminate].
    destruct (collect (map (save table) t)) as [y|] eqn:Et; [|discriminate].
    specialize (IH y eq_refl).
    destruct (collect (map (save table) (t ++ VObj c fs :: after))); cbn [bind] in *; congruence.
Qed.
Print Assumptions C100_unregistered_refuted.
Example C100_unregistered_met :
  In "SpatialDelayChannelRealization" unknown_classes /\
  well_formed "SpatialDelayChannelRealization" [("model_propagation_loss", VInt 1); ("gain", VFloat f_one)] /\
  collect (map (save table) [VObj "IdealChannelRealization" [("gain", VFloat f_one)]])
  = Ok [LNode [("type", AStr "IdealChannelRealization"); ("gain", AFloat f_one)] []].
Proof. repeat split; vm_compute; auto. Qed.

(** A bit error evaluator can never be saved. *)
Theorem C100_evaluator_refuted : forall fs, well_formed "BitErrorEvaluator" fs ->
  save table (VObj "BitErrorEvaluator" fs) = Raise AttributeError.
Proof. exact evaluator_not_saved. Qed.
Print Assumptions C100_evaluator_refuted.
Example C100_evaluator_met : well_formed "BitErrorEvaluator"
  [("transmitting_modem", a_modem []); ("receiving_modem", VObj "ReceivingModem"
     [("carrier_frequency", VNone); ("selected_receive_ports", VNone); ("encoders", VSeq [a_repetition]);
      ("waveform", a_waveform); ("frame_generator", VObj "FrameGeneratorStub" []); ("allow_padding", VInt 1);
      ("seed", VNone)])].
Proof. vm_compute. reflexivity. Qed.

(** A TDL channel of type D or E is saved, but loading it raises. *)
Theorem C100_tdl_refuted : forall fs c f z, well_formed "TDL" fs ->
  assoc "model_type" fs = Some (VObj c [(f, VInt z)]) -> z = 4%Z \/ z = 5%Z ->
  exists file, save table (VObj "TDL" fs) = Ok file /\ load table file "Channel" = Raise ValueError.
Proof. exact tdl_not_loaded. Qed.
Print Assumptions C100_tdl_refuted.
Example C100_tdl_met : well_formed "TDL"
  [("model_type", VObj "TDLType" [("value", VInt 4)]); ("rms_delay", VFloat f_zero);
   ("correlation_distance", VFloat f_one); ("num_sinusoids", VInt 20); ("los_angle", VFloat f_zero);
   ("doppler_frequency", VFloat f_one); ("los_doppler_frequency", VNone);
   ("antenna_correlation", VNone); ("gain", VFloat f_one); ("seed", VNone)].
Proof. vm_compute. reflexivity. Qed.

(** Whatever file a realization of a fading channel was saved to, it cannot be
    loaded. *)
Theorem C100_fading_realization_refuted : forall fs file b,
  save table (VObj "MultipathFadingRealization" fs) = Ok file ->
  exists ex, load table file b = Raise ex.
Proof. exact realization_not_loaded. Qed.
Print Assumptions C100_fading_realization_refuted.
Example C100_fading_realization_met :
  let u := first_uniform in let x := VArr Float64 [1%nat] [f_one] in
  exists file, save table (VObj "MultipathFadingRealization"
    [("random_realization", VObj "StaticConsistentRealization" [("scalar_samples", x)]);
     ("antenna_correlation_variable", u); ("los_angles_variable", u); ("path_angles_variable", u);
     ("los_phases_variable", u); ("path_phases_variable", u); ("power_profile", x); ("delay_profile", x);
     ("los_gains", x); ("nlos_gains", x); ("los_doppler", VFloat f_one); ("nlos_doppler", VFloat f_one);
     ("antenna_correlation", VNone); ("gain", VFloat f_one)]) = Ok file
   /\ load table file "ChannelRealization" = Raise TypeError.
Proof. eexists. split; vm_compute; reflexivity. Qed.

(** A random delay channel whose delay is an integer cannot be saved. *)
Theorem C100_integer_delay_refuted : forall fs z, assoc "delay" fs = Some (VInt z) ->
  save table (VObj "RandomDelayChannel" fs) = Raise ValueError.
Proof.
  intros fs z A. change (save table (VObj "RandomDelayChannel" fs)) with
    (do '(a, l) <- run_writes (map (fun p => (fst p, (snd p, save table (snd p)))) fs) (s_writes k_RandomDelayChannel) [] [];
     Ok (LNode (put_attr a ("type", AStr "RandomDelayChannel")) l)).
  cbn [s_writes k_RandomDelayChannel run_writes]. unfold effect at 1.
  rewrite (assoc_map (fun v => (v, save table v))). cbn [w_field wr]. rewrite A. reflexivity.
Qed.
Print Assumptions C100_integer_delay_refuted.
Example C100_integer_delay_met :
  let rest := [("decorrelation_distance", VFloat f_one); ("model_propagation_loss", VInt 1);
               ("gain", VFloat f_one); ("seed", VNone); ("delay_variable", first_uniform)] in
  well_formed "RandomDelayChannel" (("delay", VFloat (of_Z 1)) :: rest) /\
  assoc "delay" (("delay", VInt 1) :: rest) = Some (VInt 1).
Proof. split; vm_compute; reflexivity. Qed.

(** A modem with an LDPC code, or any of the other external codes, is saved, but
    loading it raises. *)
Theorem C100_external_code_refuted : forall c, In c
    ["LDPCCoding"; "BCHCoding"; "ReedSolomonCoding"; "RSCCoding"; "TurboCoding"; "PolarSCCoding"; "PolarSCLCoding"] ->
  forall a l before after, exists ex,
    load table (LSeq (before ++ LNode (("type", AStr c) :: a) l :: after)) "Encoder" = Raise ex.
Proof. exact external_code_not_loaded. Qed.
Print Assumptions C100_external_code_refuted.
Example C100_external_code_met :
  exists file, save table (a_modem [a_repetition; an_ldpc]) = Ok file /\
    load table file "Transmitter" = Raise RuntimeError /\
    exists file', save table (a_modem [a_repetition]) = Ok file' /\
      load table file' "Transmitter" = Ok (restored (a_modem [a_repetition])).
Proof.
  eexists. split; [vm_compute; reflexivity|]. split; [vm_compute; reflexivity|].
  eexists. split; vm_compute; reflexivity.
Qed.

(** A signal-to-noise ratio defined with respect to a modem is saved, but
    loading it raises: only devices are accepted as references. *)
Theorem C100_snr_reference_refuted : forall v snr scale, holds "Transmitter" v ->
  match v with VObj c _ => match find_class table c with Some k => is_sub k "Device" = false | None => False end | _ => False end ->
  exists file, save table (VObj "SNR" [("snr", VFloat snr); ("reference", v); ("expected_channel_scale", VFloat scale)]) = Ok file
    /\ load table file "NoiseLevel" = Raise RuntimeError.
Proof. exact snr_not_loaded. Qed.
Print Assumptions C100_snr_reference_refuted.
Example C100_snr_reference_met : holds "Transmitter" (a_modem []) /\
  match find_class table "TransmittingModem" with Some k => is_sub k "Device" = false | None => False end.
Proof. split; vm_compute; reflexivity. Qed.
