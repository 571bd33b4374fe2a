(** Vocabulary of C100: which values the fields of an object may hold, and what
    becomes of an object that is saved and loaded again.  [restored] knows
    nothing about files: it lists, class by class, the fields that do not come
    back as they were. *)
From Coq Require Import List Bool ZArith String Floats.SpecFloat.
From Verif Require Import Base Cfg_Model.
Import ListNotations.
Local Open Scope string_scope.

(** What a round trip does to one field.
    - [Kept]: it comes back as it was;
    - [Reset v]: it comes back as [v], whatever it was;
    - [NanIfNone]: None comes back as not-a-number;
    - [Frozen g]: None, meaning "follow field g", comes back as g's value;
    - [Retyped d]: an array comes back with data type d. *)
Inductive fate := Kept | Reset (v : val) | NanIfNone | Frozen (g : string) | Retyped (d : dtype).

Definition fates : list (string * string * fate) :=
  [("Scrambler3GPP", "seed", Reset (VStr "default seed"));
   ("Scrambler80211a", "seed", Reset (VStr "default seed"));
   ("EncoderManager", "allow_padding", Reset (VInt 1));
   ("EncoderManager", "allow_truncating", Reset (VInt 1));
   ("EncoderManager", "seed", Reset VNone);
   ("PskQamMapping", "soft_output", Reset (VInt 0));
   ("PskQamMapping", "is_complex", Reset (VInt 1));
   ("StreamBitsSource", "position", Reset (VInt 0));
   ("RootRaisedCosineWaveform", "pilot_symbol_sequence", Reset (VObj "MappedPilotSymbolSequence" []));
   ("RootRaisedCosineWaveform", "repeat_pilot_symbol_sequence", Reset (VInt 1));
   ("RaisedCosineWaveform", "pilot_symbol_sequence", Reset (VObj "MappedPilotSymbolSequence" []));
   ("RaisedCosineWaveform", "repeat_pilot_symbol_sequence", Reset (VInt 1));
   ("FMCWWaveform", "pilot_symbol_sequence", Reset (VObj "MappedPilotSymbolSequence" []));
   ("FMCWWaveform", "repeat_pilot_symbol_sequence", Reset (VInt 1));
   ("GuardSection", "sample_offset", Reset (VInt 0));
   ("PilotSection", "num_repetitions", Reset (VInt 1));
   ("PilotSection", "sample_offset", Reset (VInt 0));
   ("OFDMWaveform", "pilot_symbol_sequence", Reset (VObj "MappedPilotSymbolSequence" []));
   ("OFDMWaveform", "repeat_pilot_symbol_sequence", Reset (VInt 1));
   ("OFDMWaveform", "dc_suppression", Reset (VInt 1));
   ("OCDMWaveform", "pilot_symbol_sequence", Reset (VObj "MappedPilotSymbolSequence" []));
   ("OCDMWaveform", "repeat_pilot_symbol_sequence", Reset (VInt 1));
   ("OTFSWaveform", "pilot_symbol_sequence", Reset (VObj "MappedPilotSymbolSequence" []));
   ("OTFSWaveform", "repeat_pilot_symbol_sequence", Reset (VInt 1));
   ("OTFSWaveform", "dc_suppression", Reset (VInt 1));
   ("NRSlot", "channel_estimation", Reset (VObj "ChannelEstimation" []));
   ("NRSlot", "channel_equalization", Reset (VObj "ChannelEqualization" []));
   ("UniformArray", "dimensions", Retyped Float64);
   ("SilentTransmitter", "carrier_frequency", Reset VNone);
   ("SilentTransmitter", "seed", Reset VNone);
   ("SignalTransmitter", "selected_transmit_ports", Reset VNone);
   ("SignalTransmitter", "carrier_frequency", Reset VNone);
   ("SignalTransmitter", "seed", Reset VNone);
   ("SignalReceiver", "carrier_frequency", Reset VNone);
   ("SignalReceiver", "seed", Reset VNone);
   ("Radar", "seed", Reset VNone);
   ("MatchedFilterJcas", "encoders", Reset (VSeq []));
   ("MatchedFilterJcas", "bits_source", Reset (VObj "RandomBitsSource" [("seed", VNone)]));
   ("MatchedFilterJcas", "seed", Reset VNone);
   ("OFDMRadar", "waveform", Reset VNone);
   ("OFDMRadar", "encoders", Reset (VSeq []));
   ("OFDMRadar", "bits_source", Reset (VObj "RandomBitsSource" [("seed", VNone)]));
   ("OFDMRadar", "seed", Reset VNone);
   ("TransmittingModem", "allow_padding", Reset (VInt 1));
   ("TransmittingModem", "seed", Reset VNone);
   ("ReceivingModem", "allow_padding", Reset (VInt 1));
   ("ReceivingModem", "seed", Reset VNone);
   ("DuplexModem", "allow_padding", Reset (VInt 1));
   ("DuplexModem", "seed", Reset VNone);
   ("SimplexLink", "allow_padding", Reset (VInt 1));
   ("SimplexLink", "seed", Reset VNone);
   ("AWGN", "seed", Reset VNone);
   ("SNR", "expected_channel_scale", Reset (VFloat f_one));
   ("OscillatorPhaseNoise", "seed", Reset VNone);
   ("MemoryPolynomialPowerAmplifier", "gain", Reset (VFloat f_one));
   ("MemoryPolynomialPowerAmplifier", "noise_model", Reset (VObj "AWGN" [("seed", VNone)]));
   ("MemoryPolynomialPowerAmplifier", "noise_level", Reset (VObj "N0" [("power", VFloat f_zero)]));
   ("MemoryPolynomialPowerAmplifier", "seed", Reset VNone);
   ("MemoryCTPolynomialPowerAmplifier", "gain", Reset (VFloat f_one));
   ("MemoryCTPolynomialPowerAmplifier", "noise_model", Reset (VObj "AWGN" [("seed", VNone)]));
   ("MemoryCTPolynomialPowerAmplifier", "noise_level", Reset (VObj "N0" [("power", VFloat f_zero)]));
   ("MemoryCTPolynomialPowerAmplifier", "seed", Reset VNone);
   ("RampGenerator", "noise_model", Reset (VObj "AWGN" [("seed", VNone)]));
   ("RampGenerator", "noise_level", Reset (VObj "N0" [("power", VFloat f_zero)]));
   ("ADC", "num_ports", Reset (VInt 1));
   ("ADC", "noise_model", Reset (VObj "AWGN" [("seed", VNone)]));
   ("ADC", "noise_level", Reset (VObj "N0" [("power", VFloat f_zero)]));
   ("ADC", "seed", Reset VNone);
   ("RFBlockReference", "connections", Reset (VSeq []));
   ("X410", "num_tx_channels", Reset (VInt 1));
   ("X410", "num_rx_channels", Reset (VInt 1));
   ("X410", "phase_noise", Reset (VInt 1));
   ("IdealChannel", "seed", Reset VNone);
   ("RandomDelayChannel", "delay_variable", Reset first_uniform);
   ("MultipathFadingChannel", "los_doppler_frequency", NanIfNone);
   ("MultipathFadingChannel", "los_angle", Reset (VStr "drawn at random"));
   ("Exponential", "los_doppler_frequency", Frozen "doppler_frequency");
   ("Cost259", "los_doppler_frequency", Frozen "doppler_frequency");
   ("SimulatedDevice", "antennas", Reset one_ideal_antenna);
   ("SimulatedDevice", "noise_level", Reset (VObj "N0" [("power", VFloat f_zero)]));
   ("SimulatedDevice", "velocity", Reset (VStr "zero velocity"));
   ("SimulatedDevice", "seed", Reset VNone);
   ("SimulatedDrop", "channel_realizations", Reset (VSeq []));
   ("SI", "confidence", Reset (VFloat f_one));
   ("SI", "tolerance", Reset (VFloat f_zero));
   ("SI", "min_num_samples", Reset (VInt 1024));
   ("SelectiveLeakageCalibration", "transmit_ports", Reset VNone);
   ("SelectiveLeakageCalibration", "receive_ports", Reset VNone);
   ("PolarSCCoding", "ber", Reset (VFloat f_zero));
   ("PolarSCLCoding", "ber", Reset (VFloat f_zero));
   ("TDL", "los_doppler_frequency", Frozen "doppler_frequency");
   ("RectangularWaveform", "pilot_symbol_sequence", Reset (VObj "MappedPilotSymbolSequence" []));
   ("RectangularWaveform", "repeat_pilot_symbol_sequence", Reset (VInt 1))].

Fixpoint fate_in (t : list (string * string * fate)) (c f : string) : fate :=
  match t with
  | [] => Kept
  | (c', f', x) :: t => if String.eqb c c' && String.eqb f f' then x else fate_in t c f
  end.
Definition fate_of := fate_in fates.

Definition suffer (x : fate) (v : val) (siblings : list (string * val)) : val :=
  match x with
  | Kept => v
  | Reset d => d
  | NanIfNone => match v with VNone => VFloat S754_nan | _ => v end
  | Frozen g => match v with
                | VNone => match assoc g siblings with Some u => u | None => VNone end
                | _ => v end
  | Retyped d => match v with VArr _ s x => VArr d s x | _ => v end
  end.

Fixpoint restored (v : val) : val :=
  match v with
  | VObj c fs =>
      let rs := map (fun p => (fst p, restored (snd p))) fs in
      VObj c (map (fun p => (fst p, suffer (fate_of c (fst p)) (snd p) rs)) rs)
  | VSeq l => VSeq (map restored l)
  | _ => v
  end.

(** No field of the object or of the objects it holds has a fate. *)
Definition is_kept (x : fate) : bool := match x with Kept => true | _ => false end.
Fixpoint untouched (v : val) : bool :=
  match v with
  | VObj c fs => forallb (fun p => is_kept (fate_of c (fst p)) && untouched (snd p)) fs
  | VSeq l => forallb untouched l
  | _ => true
  end.

(** Objects the library writes but cannot read, or not even write; see the
    refutations of C100. *)
Definition loadable (c : string) (fs : list (string * val)) : bool :=
  if String.eqb c "BitErrorEvaluator" then false
  else if String.eqb c "MultipathFadingRealization" then false
  else if String.eqb c "TDL" then
    match assoc "model_type" fs with
    | Some (VObj _ [(_, VInt z)]) => negb ((z =? 4) || (z =? 5))%Z
    | _ => false
    end
  else true.

Definition dtype_eqb (a b : dtype) : bool :=
  match a, b with
  | Int64, Int64 | Float64, Float64 | Complex128, Complex128 => true
  | _, _ => false
  end.
Definition is_none (v : val) : bool := match v with VNone => true | _ => false end.
Definition has_ty (t : ty) (v : val) (w : bty -> bool) : bool :=
  match t with Req b => w b | Opt b => is_none v || w b end.
(** The fields are the declared ones, in order, and well typed. *)
Fixpoint fields_ok (fs : list (string * (val * (bty -> bool)))) (ts : list (string * ty)) : bool :=
  match fs, ts with
  | [], [] => true
  | (f, (v, w)) :: fs', (g, t) :: ts' => String.eqb f g && has_ty t v w && fields_ok fs' ts'
  | _, _ => false
  end.

(** [v] may be held by a field of type [b]. *)
Fixpoint wt (tbl : list schema) (v : val) (b : bty) {struct v} : bool :=
  match b, v with
  | TAny, _ => true
  | TInt, VInt z => in_int64 z
  | TBool, VInt z => (z =? 0)%Z || (z =? 1)%Z
  | TFloat, VFloat _ => true
  | TRate, VFloat f => match trunc f with Some z => (z =? 0)%Z | None => false end
  | TStr, VStr _ => true
  | TRange, VFloat _ | TRange, VPair _ _ => true
  | TArr d, VArr d' _ _ => dtype_eqb d d'
  | TNum, VArr d _ _ => dtype_eqb d Int64 || dtype_eqb d Float64
  | TObj b, VObj c fs =>
      match find_class tbl c with
      | Some k => s_registered k && is_sub k b && loadable c fs
                  && fields_ok (map (fun p => (fst p, (snd p, wt tbl (snd p)))) fs) (s_fields k)
      | None => false
      end
  | TSeq b, VSeq l => forallb (fun u => wt tbl u (TObj b)) l
  | _, _ => false
  end.

(** An object a field of class [b] may hold. *)
Definition holds (b : string) (v : val) : Prop := wt table v (TObj b) = true.

(** The fields of an object of class [c] are all there and well typed; nothing
    is said about whether it can be saved or loaded. *)
Definition well_formed (c : string) (fs : list (string * val)) : Prop :=
  match find_class table c with
  | Some k => fields_ok (map (fun p => (fst p, (snd p, wt table (snd p)))) fs) (s_fields k) = true
  | None => False
  end.
(** The library classes the factory does not know. *)
Definition unknown_classes : list string :=
  ["MemoryPolynomialPowerAmplifier"; "MemoryCTPolynomialPowerAmplifier"; "X410";
   "SpatialDelayChannelRealization"; "RandomDelayChannelRealization"; "BITrajectoryB"].
