(** Saving and restoring the parameters of the serializable classes:
    core/factory.py together with the serialize / Deserialize methods of the
    classes, which are transcribed field by field as [schema]s.

    Objects are trees: sharing of objects and arrays (soft links, reference
    cycles) is the subject of C12 and left out here.  Constructor validation is
    left out except where it rejects what the same class has written
    ([s_check]).  An array is its data type, shape and element list (complex
    numbers as two consecutive elements); numpy's conversion between data types
    changes the type only.  Hooks and caches are not fields. *)
From Coq Require Import List Bool ZArith String Floats.SpecFloat.
From Verif Require Import Base.
Import ListNotations.
Local Open Scope string_scope.

Inductive dtype := Int64 | Float64 | Complex128.

(** Python values held by the fields of an object.  Booleans are [VInt 0/1]. *)
Inductive val :=
| VNone
| VInt (z : Z)
| VFloat (f : spec_float)
| VPair (a b : spec_float)
| VStr (s : string)
| VArr (d : dtype) (shape : list nat) (data : list spec_float)
| VObj (cls : string) (fields : list (string * val))
| VSeq (l : list val).

(** HDF5: attributes and links of a group are separate name spaces. *)
Inductive attr := AInt (z : Z) | AFloat (f : spec_float) | AStr (s : string).
Inductive link :=
| LArr (d : dtype) (shape : list nat) (data : list spec_float)
| LNode (attrs : list (string * attr)) (links : list (string * link))
| LSeq (l : list link).

Fixpoint assoc {A} (k : string) (l : list (string * A)) : option A :=
  match l with
  | [] => None
  | (k', a) :: t => if String.eqb k k' then Some a else assoc k t
  end.

(** [WArr (Some d)]: np.asarray(.., d) before writing.  [RIntF]: an integer
    handed to a constructor that takes a float. *)
Inductive wkind := WInt | WFloat | WStr | WRange | WArr (cast : option dtype) | WObj | WSeq.
Inductive rkind :=
| RInt | RBool | RIntF | RFloat | RStr | RRange | RArr (d : dtype)
| RObj (base : string) | RSeq (base : string).

(** One call of a serialize_* method.  [w_opt]: guarded by "is not None".
    [w_alt]: the property read falls back to another field if it is None. *)
Record write := mkWrite
  { w_field : string; w_key : string; w_kind : wkind; w_opt : bool; w_alt : option string }.
(** One call of a deserialize_* method, with its default. *)
Record read := mkRead { r_field : string; r_key : string; r_kind : rkind; r_def : option val }.

Definition wr f k q := mkWrite f k q false None.
Definition wr_opt f k q := mkWrite f k q true None.
Definition wr_alt f k q g := mkWrite f k q false (Some g).
Definition rd f k q := mkRead f k q None.
Definition rd_def f k q v := mkRead f k q (Some v).

(** What a field may hold.  [TNum]: an array of integers or floats.  [TRate]: a
    float of magnitude below one.  [TAny]: anything. *)
Inductive bty :=
| TInt | TBool | TFloat | TRate | TStr | TRange | TArr (d : dtype) | TNum
| TObj (base : string) | TSeq (base : string) | TAny.
Inductive ty := Req (b : bty) | Opt (b : bty).

(** A class: its name, the base classes it is read as, whether the factory
    registers it (core/factory.py:161-204: exported by a top-level package and
    not abstract), its fields, the calls made by serialize and by Deserialize,
    the values its constructor gives the fields Deserialize does not pass, and
    the exception its constructor raises for the loaded fields, if any. *)
Record schema := mkSchema
  { s_name : string; s_bases : list string; s_registered : bool;
    s_fields : list (string * ty); s_writes : list write; s_reads : list read;
    s_init : list (string * val);
    s_check : option (list (string * val) -> option exn) }.

Definition find_class (tbl : list schema) (c : string) : option schema :=
  find (fun k => String.eqb (s_name k) c) tbl.
(** [issubclass]. *)
Definition is_sub (k : schema) (b : string) : bool :=
  String.eqb (s_name k) b || existsb (String.eqb b) (s_bases k).

(** int(f) towards zero; None for infinities and NaN. *)
Definition trunc (f : spec_float) : option Z :=
  match f with
  | S754_zero _ => Some 0%Z
  | S754_finite s m e =>
      let a := if (0 <=? e)%Z then Z.shiftl (Zpos m) e else Z.shiftr (Zpos m) (- e) in
      Some (if s then - a else a)%Z
  | _ => None
  end.
(** float(z), rounded to nearest even (IEEE binary64). *)
Definition of_Z (z : Z) : spec_float := binary_normalize 53 1024 z 0 false.
Definition in_int64 (z : Z) : bool := ((- 2 ^ 63 <=? z) && (z <? 2 ^ 63))%Z.

(** What one call adds to the current group: core/factory.py:484-499 (ranges),
    884-902 (arrays), 905-918 (attributes), 414-436 (objects), 961-990
    (sequences).  The conversions are those of h5py's attrs.create.  [env] holds, for
    every field, its value and the outcome of saving it as a link. *)
Definition env := list (string * (val * result link)).
Definition effect (e : env) (w : write) : result (list (string * attr) * list (string * link)) :=
  match assoc (w_field w) e with
  | None => Raise AttributeError
  | Some vr0 =>
      match (match fst vr0, w_alt w with
             | VNone, Some g => assoc g e
             | _, _ => Some vr0
             end) with
      | None => Raise AttributeError
      | Some (v, r) =>
          if w_opt w && (match v with VNone => true | _ => false end) then Ok ([], [])
          else
            match w_kind w, v with
            | WInt, VInt z => if in_int64 z then Ok ([(w_key w, AInt z)], []) else Raise OverflowError
            | WInt, VFloat f =>
                match trunc f with
                | Some z => if in_int64 z then Ok ([(w_key w, AInt z)], []) else Raise OverflowError
                | None => Raise (match f with S754_nan => ValueError | _ => OverflowError end)
                end
            | WInt, _ => Raise TypeError
            | WFloat, VFloat f => Ok ([(w_key w, AFloat f)], [])
            | WFloat, VInt z => Ok ([(w_key w, AFloat (of_Z z))], [])
            | WFloat, VNone => Ok ([(w_key w, AFloat S754_nan)], [])
            | WFloat, _ => Raise TypeError
            | WStr, VStr s => Ok ([(w_key w, AStr s)], [])
            | WStr, _ => Raise TypeError
            | WRange, VNone => Ok ([], [])
            | WRange, VPair a b =>
                Ok ([(w_key w ++ "_min", AFloat a); (w_key w ++ "_max", AFloat b)], [])
            | WRange, VFloat f => Ok ([(w_key w, AFloat f)], [])
            | WRange, _ => Raise ValueError
            | WArr c, VArr d s x =>
                Ok ([], [(w_key w, LArr (match c with Some d' => d' | None => d end) s x)])
            | WArr _, _ => Raise AttributeError
            | WObj, VObj _ _ => do l <- r; Ok ([], [(w_key w, l)])
            | WObj, _ => Raise RuntimeError
            | WSeq, VSeq _ => do l <- r; Ok ([], [(w_key w, l)])
            | WSeq, _ => Raise TypeError
            end
      end
  end.

(** attrs.create overwrites; arrays, objects and sequence elements that already
    exist are skipped (core/factory.py:887-888, 924-925, 968-990; simplified: a
    sequence written twice keeps its first version, which is the whole of it
    because both calls write the same field). *)
Definition put_attr (l : list (string * attr)) (p : string * attr) : list (string * attr) := p :: l.
Definition put_link (l : list (string * link)) (p : string * link) : list (string * link) :=
  match assoc (fst p) l with Some _ => l | None => p :: l end.
Fixpoint run_writes (e : env) (ws : list write) (a : list (string * attr))
    (l : list (string * link)) : result (list (string * attr) * list (string * link)) :=
  match ws with
  | [] => Ok (a, l)
  | w :: t => do '(x, y) <- effect e w;
              run_writes e t (fold_left put_attr x a) (fold_left put_link y l)
  end.

Fixpoint collect {A} (l : list (result A)) : result (list A) :=
  match l with
  | [] => Ok []
  | r :: t => do x <- r; do xs <- collect t; Ok (x :: xs)
  end.

(** serialize_object (core/factory.py:414-436) and _serialize_object (921-958):
    the class tag is the attribute "type", written last; sequences
    (core/factory.py:961-990). *)
Fixpoint save (tbl : list schema) (v : val) : result link :=
  match v with
  | VObj c fs =>
      match find_class tbl c with
      | Some k =>
          if s_registered k then
            let e := map (fun p => (fst p, (snd p, save tbl (snd p)))) fs in
            do '(a, l) <- run_writes e (s_writes k) [] [];
            Ok (LNode (put_attr a ("type", AStr c)) l)
          else Raise RuntimeError
      | None => Raise RuntimeError
      end
  | VSeq l => do ls <- collect (map (save tbl) l); Ok (LSeq ls)
  | VArr d s x => Ok (LArr d s x)
  | _ => Raise RuntimeError
  end.

Definition lenv := list (string * (link * (string -> result val))).
Definition missing (r : read) : result val :=
  match r_def r with Some v => Ok v | None => Raise RuntimeError end.
(** core/factory.py:784-812 (ranges), 1066-1092 (arrays), 1094-1134
    (attributes), 716-744 and 1137-1190 (objects), 1193-1220 (sequences).
    Simplified: an attribute of another type read as a string raises, where
    Python converts it. *)
Definition run_read (a : list (string * attr)) (l : lenv) (r : read) : result val :=
  match r_kind r with
  | RInt => match assoc (r_key r) a with
            | Some (AInt z) => Ok (VInt z) | Some _ => Raise RuntimeError | None => missing r end
  | RBool => match assoc (r_key r) a with
             | Some (AInt z) => Ok (VInt (if (z =? 0)%Z then 0 else 1))
             | Some _ => Raise RuntimeError | None => missing r end
  | RIntF => match assoc (r_key r) a with
             | Some (AInt z) => Ok (VFloat (of_Z z))
             | Some _ => Raise RuntimeError | None => missing r end
  | RFloat => match assoc (r_key r) a with
              | Some (AFloat f) => Ok (VFloat f) | Some _ => Raise RuntimeError | None => missing r end
  | RStr => match assoc (r_key r) a with
            | Some (AStr s) => Ok (VStr s)
            | Some _ => Raise RuntimeError
            | None => Ok (match r_def r with Some v => v | None => VStr "None" end) end
  | RRange =>
      match assoc (r_key r) a with
      | Some (AFloat f) => Ok (VFloat f)
      | Some _ => Raise RuntimeError
      | None =>
          match assoc (r_key r ++ "_min") a, assoc (r_key r ++ "_max") a with
          | Some (AFloat x), Some (AFloat y) => Ok (VPair x y)
          | None, None | None, Some (AFloat _) | Some (AFloat _), None => missing r
          | _, _ => Raise RuntimeError
          end
      end
  | RArr d => match assoc (r_key r) l with
              | Some (LArr _ s x, _) => Ok (VArr d s x)
              | Some _ => Raise TypeError | None => missing r end
  | RObj b => match assoc (r_key r) l with
              | Some (LNode _ _, go) => go b
              | Some _ => Raise RuntimeError | None => missing r end
  | RSeq b => match assoc (r_key r) l with
              | Some (LSeq _, go) => go b
              | Some _ => Raise RuntimeError | None => Ok (VSeq []) end
  end.

Definition run_reads (a : list (string * attr)) (l : lenv) (rs : list read)
  : result (list (string * val)) :=
  mapM (fun r => do v <- run_read a l r; Ok (r_field r, v)) rs.

(** The constructed object: fields passed by Deserialize, the others as set by
    the constructor. *)
Definition construct (k : schema) (got : list (string * val)) : list (string * val) :=
  map (fun ft => (fst ft,
         match assoc (fst ft) got with
         | Some v => v
         | None => match assoc (fst ft) (s_init k) with Some v => v | None => VNone end
         end)) (s_fields k).

(** _deserialize_object (core/factory.py:1137-1190), as an object of class [b],
    and deserialize_object_sequence (1193-1220). *)
Fixpoint load (tbl : list schema) (x : link) (b : string) {struct x} : result val :=
  match x with
  | LNode a l =>
      match assoc "type" a with
      | Some (AStr c) =>
          match find_class tbl c with
          | Some k =>
              if s_registered k && is_sub k b then
                let e := map (fun p => (fst p, (snd p, load tbl (snd p)))) l in
                do got <- run_reads a e (s_reads k);
                let fs := construct k got in
                match s_check k with
                | Some g => match g fs with Some ex => Raise ex | None => Ok (VObj c fs) end
                | None => Ok (VObj c fs)
                end
              else Raise RuntimeError
          | None => Raise RuntimeError
          end
      | _ => Raise RuntimeError
      end
  | LSeq l => do vs <- collect (map (fun y => load tbl y b) l); Ok (VSeq vs)
  | LArr _ _ _ => Raise RuntimeError
  end.

Definition f_zero : spec_float := S754_zero false.
Definition f_one : spec_float := of_Z 1.
(** channel/consistent.py:33-48, 317-333 and 353-367: the first variable of a
    generator. *)
Definition first_uniform : val :=
  VObj "ConsistentUniform" [("shape", VArr Int64 [1%nat] [f_one]); ("offset", VInt 0)].
(** simulation/simulated_device.py:1218-1222: the default antenna array (kept
    abstract: a name standing for it). *)
Definition one_ideal_antenna : val := VStr "one ideal antenna".
(** channel/fading/tdl.py:280-284 and 325-329: types D (4) and E (5) refuse a line of sight
    Doppler frequency. *)
Definition tdl_check (fs : list (string * val)) : option exn :=
  match assoc "model_type" fs, assoc "los_doppler_frequency" fs with
  | Some (VObj _ [(_, VInt z)]), Some v =>
      if ((z =? 4) || (z =? 5))%Z
      then match v with VNone => None | _ => Some ValueError end else None
  | _, _ => None
  end.

(** fec/aff3ct_wrappers.py:29-36, 38-47 [LDPCCoding]. *)
Definition k_LDPCCoding : schema := mkSchema "LDPCCoding" [] true
  [("num_iterations", Req TInt); ("h_path", Req TStr); ("g_path", Req TStr);
   ("syndrome_checking", Req TBool); ("min_num_iterations", Req TInt)]
  [wr "num_iterations" "num_iterations" WInt; wr "h_path" "h_path" WStr; wr "g_path" "g_path" WStr;
   wr "syndrome_checking" "syndrome_checking" WInt;
   wr "min_num_iterations" "min_num_iterations" WInt]
  [rd "num_iterations" "num_iterations" RInt; rd "h_path" "h_path" RStr; rd "g_path" "g_path" RStr;
   rd "syndrome_checking" "syndrome_checking" RBool;
   rd "min_num_iterations" "min_num_iterations" RInt]
  []
  None.

(** fec/aff3ct_wrappers.py:52-57, 59-66 [BCHCoding]. *)
Definition k_BCHCoding : schema := mkSchema "BCHCoding" [] true
  [("data_block_size", Req TInt); ("code_block_size", Req TInt); ("power", Req TInt)]
  [wr "data_block_size" "data_block_size" WInt; wr "code_block_size" "code_block_size" WInt;
   wr "power" "power" WInt]
  [rd "data_block_size" "data_block_size" RInt; rd "code_block_size" "code_block_size" RInt;
   rd "power" "power" RInt]
  []
  None.

(** fec/aff3ct_wrappers.py:111-115, 117-123 [ReedSolomonCoding]. *)
Definition k_ReedSolomonCoding : schema := mkSchema "ReedSolomonCoding" [] true
  [("data_block_size", Req TInt); ("correction_power", Req TInt)]
  [wr "data_block_size" "data_block_size" WInt; wr "correction_power" "correction_power" WInt]
  [rd "data_block_size" "data_block_size" RInt; rd "correction_power" "correction_power" RInt]
  []
  None.

(** fec/aff3ct_wrappers.py:128-135, 137-146 [RSCCoding]. *)
Definition k_RSCCoding : schema := mkSchema "RSCCoding" [] true
  [("bit_block_size", Req TInt); ("code_block_size", Req TInt); ("buffered_coding", Req TBool);
   ("poly_a", Req TInt); ("poly_b", Req TInt)]
  [wr "bit_block_size" "bit_block_size" WInt; wr "code_block_size" "code_block_size" WInt;
   wr "buffered_coding" "buffered_coding" WInt; wr "poly_a" "poly_a" WInt;
   wr "poly_b" "poly_b" WInt]
  [rd "bit_block_size" "bit_block_size" RInt; rd "code_block_size" "code_block_size" RInt;
   rd "buffered_coding" "buffered_coding" RBool; rd "poly_a" "poly_a" RInt;
   rd "poly_b" "poly_b" RInt]
  []
  None.

(** fec/aff3ct_wrappers.py:151-157, 159-167 [TurboCoding]. *)
Definition k_TurboCoding : schema := mkSchema "TurboCoding" [] true
  [("data_block_size", Req TInt); ("poly_a", Req TInt); ("poly_b", Req TInt);
   ("num_iterations", Req TInt)]
  [wr "data_block_size" "data_block_size" WInt; wr "poly_a" "poly_a" WInt;
   wr "poly_b" "poly_b" WInt; wr "num_iterations" "num_iterations" WInt]
  [rd "data_block_size" "data_block_size" RInt; rd "poly_a" "poly_a" RInt;
   rd "poly_b" "poly_b" RInt; rd "num_iterations" "num_iterations" RInt]
  []
  None.

(** fec/block_interleaver.py:62-86, 152-155, 157-163; fec/coding.py:44-56 [BlockInterleaver]. *)
Definition k_BlockInterleaver : schema := mkSchema "BlockInterleaver" ["Encoder"] true
  [("block_size", Req TInt); ("interleave_blocks", Req TInt)]
  [wr "block_size" "block_size" WInt; wr "interleave_blocks" "interleave_blocks" WInt]
  [rd "block_size" "block_size" RInt; rd "interleave_blocks" "interleave_blocks" RInt]
  []
  None.

(** fec/cyclic_redundancy_check.py:45-61, 105-108, 110-116; fec/coding.py:44-56; core/random_node.py:74-87 [CyclicRedundancyCheck]. *)
Definition k_CyclicRedundancyCheck : schema := mkSchema "CyclicRedundancyCheck" ["Encoder"] true
  [("bit_block_size", Req TInt); ("check_block_size", Req TInt)]
  [wr "bit_block_size" "bit_block_size" WInt; wr "check_block_size" "check_block_size" WInt]
  [rd "bit_block_size" "bit_block_size" RInt; rd "check_block_size" "check_block_size" RInt]
  []
  None.

(** fec/repetition_encoder.py:69-82, 141-144, 146-152; fec/coding.py:44-56 [RepetitionEncoder]. *)
Definition k_RepetitionEncoder : schema := mkSchema "RepetitionEncoder" ["Encoder"] true
  [("bit_block_size", Req TInt); ("repetitions", Req TInt)]
  [wr "bit_block_size" "bit_block_size" WInt; wr "repetitions" "repetitions" WInt]
  [rd "bit_block_size" "bit_block_size" RInt; rd "repetitions" "repetitions" RInt]
  []
  None.

(** fec/scrambler.py:139-155, 177-179, 181-184; fec/coding.py:44-56 [Scrambler3GPP]. Nothing is written; the constructor substitutes its class-level default seed. *)
Definition k_Scrambler3GPP : schema := mkSchema "Scrambler3GPP" ["Encoder"] true
  [("seed", Req TAny)]
  []
  []
  [("seed", (VStr "default seed"))]
  None.

(** fec/scrambler.py:197-211, 286-288, 290-293; fec/coding.py:44-56 [Scrambler80211a]. Nothing is written; the constructor substitutes its class-level default seed. *)
Definition k_Scrambler80211a : schema := mkSchema "Scrambler80211a" ["Encoder"] true
  [("seed", Req TAny)]
  []
  []
  [("seed", (VStr "default seed"))]
  None.

(** fec/coding.py:170-195, 466-468, 470-477; core/random_node.py:74-87 [EncoderManager]. Re-adding the encoders in stored order keeps it (add_encoder sorts stably, Fec_Model). *)
Definition k_EncoderManager : schema := mkSchema "EncoderManager" [] true
  [("encoders", Req (TSeq "Encoder")); ("allow_padding", Req TBool);
   ("allow_truncating", Req TBool); ("seed", Opt TInt)]
  [wr "encoders" "encoders" WSeq]
  [rd "encoders" "encoders" (RSeq "Encoder")]
  [("allow_padding", (VInt 1)); ("allow_truncating", (VInt 1)); ("seed", VNone)]
  None.

(** modem/tools/psk_qam_mapping.py:41-102, 526-530, 532-538 [PskQamMapping]. The rescaling of a custom mapping to unit power is not modelled (Qam_Model). *)
Definition k_PskQamMapping : schema := mkSchema "PskQamMapping" [] true
  [("modulation_order", Req TInt); ("mapping", Opt (TArr Complex128)); ("soft_output", Req TBool);
   ("is_complex", Req TBool)]
  [wr "modulation_order" "modulation_order" WInt; wr_opt "mapping" "mapping" (WArr None)]
  [rd "modulation_order" "modulation_order" RInt;
   rd_def "mapping" "mapping" (RArr Complex128) VNone]
  [("soft_output", (VInt 0)); ("is_complex", (VInt 1))]
  None.

(** modem/bits_source.py:52-59, 65-68, 70-73; modem/bits_source.py:29-35; core/random_node.py:74-87 [RandomBitsSource]. *)
Definition k_RandomBitsSource : schema := mkSchema "RandomBitsSource" ["BitsSource"] true
  [("seed", Opt TInt)]
  [wr_opt "seed" "seed" WInt]
  [rd_def "seed" "seed" RInt VNone]
  []
  None.

(** modem/bits_source.py:81-89, 107-109, 111-114; modem/bits_source.py:29-35; core/random_node.py:74-87 [StreamBitsSource]. The stream is opened again at its start. *)
Definition k_StreamBitsSource : schema := mkSchema "StreamBitsSource" ["BitsSource"] true
  [("path", Req TStr); ("position", Req TInt)]
  [wr "path" "path" WStr]
  [rd "path" "path" RStr]
  [("position", (VInt 0))]
  None.

(** modem/waveform.py:39-46, 101-103, 105-108 [Synchronization]. *)
Definition k_Synchronization : schema := mkSchema "Synchronization" ["Synchronization"] true
  []
  []
  []
  []
  None.

(** modem/waveform.py:114-121, 172-174, 176-179 [ChannelEstimation]. *)
Definition k_ChannelEstimation : schema := mkSchema "ChannelEstimation" ["ChannelEstimation"] true
  []
  []
  []
  []
  None.

(** modem/waveform.py:185-192, 225-227, 229-232 [ChannelEqualization]. *)
Definition k_ChannelEqualization : schema := mkSchema "ChannelEqualization" ["ChannelEqualization"] true
  []
  []
  []
  []
  None.

(** modem/waveform_correlation_synchronization.py:41-70, 172-176, 178-187; modem/waveform.py:39-46, 101-103, 105-108 [CorrelationSynchronization]. *)
Definition k_CorrelationSynchronization : schema := mkSchema "CorrelationSynchronization" ["Synchronization"] true
  [("threshold", Req TFloat); ("guard_ratio", Req TFloat); ("peak_prominence", Req TFloat)]
  [wr "threshold" "threshold" WFloat; wr "guard_ratio" "guard_ratio" WFloat;
   wr "peak_prominence" "peak_prominence" WFloat]
  [rd "threshold" "threshold" RFloat; rd "guard_ratio" "guard_ratio" RFloat;
   rd "peak_prominence" "peak_prominence" RFloat]
  []
  None.

(** modem/waveform.py:685-693, 700-704, 706-712 [UniformPilotSymbolSequence]. The scalar is written as an array of length one. *)
Definition k_UniformPilotSymbolSequence : schema := mkSchema "UniformPilotSymbolSequence" ["PilotSymbolSequence"] true
  [("pilot_symbol", Req (TArr Complex128))]
  [wr "pilot_symbol" "pilot_symbol" (WArr None)]
  [rd "pilot_symbol" "pilot_symbol" (RArr Complex128)]
  []
  None.

(** modem/waveform.py:723-731, 737-739, 741-745 [CustomPilotSymbolSequence]. *)
Definition k_CustomPilotSymbolSequence : schema := mkSchema "CustomPilotSymbolSequence" ["PilotSymbolSequence"] true
  [("pilot_symbols", Req (TArr Complex128))]
  [wr "pilot_symbols" "pilot_symbols" (WArr None)]
  [rd "pilot_symbols" "pilot_symbols" (RArr Complex128)]
  []
  None.

(** modem/waveform_single_carrier.py:780-781; modem/waveform_single_carrier.py:645-674, 756-761, 763-774; modem/waveform_single_carrier.py:70-127, 449-456, 479-482, 458-477; modem/waveform.py:768-795; modem/waveform.py:263-301, 612-617, 619-640 [RootRaisedCosineWaveform]. ConfigurablePilotWaveform has no serialize of its own, so the pilots are not written. *)
Definition k_RootRaisedCosineWaveform : schema := mkSchema "RootRaisedCosineWaveform" ["CommunicationWaveform"; "FilteredSingleCarrierWaveform"] true
  [("modulation_order", Req TInt); ("synchronization", Req (TObj "Synchronization"));
   ("channel_estimation", Req (TObj "ChannelEstimation"));
   ("channel_equalization", Req (TObj "ChannelEqualization")); ("num_preamble_symbols", Req TInt);
   ("num_data_symbols", Req TInt); ("num_postamble_symbols", Req TInt);
   ("guard_interval", Req TFloat); ("pilot_rate", Req TInt); ("pilot_symbol_sequence", Req TAny);
   ("repeat_pilot_symbol_sequence", Req TBool); ("relative_bandwidth", Req TFloat);
   ("roll_off", Req TFloat); ("filter_length", Req TInt)]
  [wr "modulation_order" "modulation_order" WInt; wr "synchronization" "synchronization" WObj;
   wr "channel_estimation" "channel_estimation" WObj;
   wr "channel_equalization" "channel_equalization" WObj;
   wr "num_preamble_symbols" "num_preamble_symbols" WInt;
   wr "num_data_symbols" "num_data_symbols" WInt;
   wr "num_postamble_symbols" "num_postamble_symbols" WInt;
   wr "guard_interval" "guard_interval" WFloat; wr "pilot_rate" "pilot_rate" WInt;
   wr "relative_bandwidth" "relative_bandwidth" WFloat; wr "roll_off" "roll_off" WFloat;
   wr "filter_length" "filter_length" WInt]
  [rd "modulation_order" "modulation_order" RInt;
   rd "synchronization" "synchronization" (RObj "Synchronization");
   rd "channel_estimation" "channel_estimation" (RObj "ChannelEstimation");
   rd "channel_equalization" "channel_equalization" (RObj "ChannelEqualization");
   rd "num_preamble_symbols" "num_preamble_symbols" RInt;
   rd "num_data_symbols" "num_data_symbols" RInt;
   rd "num_postamble_symbols" "num_postamble_symbols" RInt;
   rd "guard_interval" "guard_interval" RFloat; rd "pilot_rate" "pilot_rate" RInt;
   rd "relative_bandwidth" "relative_bandwidth" RFloat; rd "roll_off" "roll_off" RFloat;
   rd "filter_length" "filter_length" RInt]
  [("pilot_symbol_sequence", (VObj "MappedPilotSymbolSequence" []));
   ("repeat_pilot_symbol_sequence", (VInt 1))]
  None.

(** modem/waveform_single_carrier.py:828-829; modem/waveform_single_carrier.py:645-674, 756-761, 763-774; modem/waveform_single_carrier.py:70-127, 449-456, 479-482, 458-477; modem/waveform.py:768-795; modem/waveform.py:263-301, 612-617, 619-640 [RaisedCosineWaveform]. ConfigurablePilotWaveform has no serialize of its own, so the pilots are not written. *)
Definition k_RaisedCosineWaveform : schema := mkSchema "RaisedCosineWaveform" ["CommunicationWaveform"; "FilteredSingleCarrierWaveform"] true
  [("modulation_order", Req TInt); ("synchronization", Req (TObj "Synchronization"));
   ("channel_estimation", Req (TObj "ChannelEstimation"));
   ("channel_equalization", Req (TObj "ChannelEqualization")); ("num_preamble_symbols", Req TInt);
   ("num_data_symbols", Req TInt); ("num_postamble_symbols", Req TInt);
   ("guard_interval", Req TFloat); ("pilot_rate", Req TInt); ("pilot_symbol_sequence", Req TAny);
   ("repeat_pilot_symbol_sequence", Req TBool); ("relative_bandwidth", Req TFloat);
   ("roll_off", Req TFloat); ("filter_length", Req TInt)]
  [wr "modulation_order" "modulation_order" WInt; wr "synchronization" "synchronization" WObj;
   wr "channel_estimation" "channel_estimation" WObj;
   wr "channel_equalization" "channel_equalization" WObj;
   wr "num_preamble_symbols" "num_preamble_symbols" WInt;
   wr "num_data_symbols" "num_data_symbols" WInt;
   wr "num_postamble_symbols" "num_postamble_symbols" WInt;
   wr "guard_interval" "guard_interval" WFloat; wr "pilot_rate" "pilot_rate" WInt;
   wr "relative_bandwidth" "relative_bandwidth" WFloat; wr "roll_off" "roll_off" WFloat;
   wr "filter_length" "filter_length" WInt]
  [rd "modulation_order" "modulation_order" RInt;
   rd "synchronization" "synchronization" (RObj "Synchronization");
   rd "channel_estimation" "channel_estimation" (RObj "ChannelEstimation");
   rd "channel_equalization" "channel_equalization" (RObj "ChannelEqualization");
   rd "num_preamble_symbols" "num_preamble_symbols" RInt;
   rd "num_data_symbols" "num_data_symbols" RInt;
   rd "num_postamble_symbols" "num_postamble_symbols" RInt;
   rd "guard_interval" "guard_interval" RFloat; rd "pilot_rate" "pilot_rate" RInt;
   rd "relative_bandwidth" "relative_bandwidth" RFloat; rd "roll_off" "roll_off" RFloat;
   rd "filter_length" "filter_length" RInt]
  [("pilot_symbol_sequence", (VObj "MappedPilotSymbolSequence" []));
   ("repeat_pilot_symbol_sequence", (VInt 1))]
  None.

(** modem/waveform_single_carrier.py:897-915, 997-1000, 1002-1010; modem/waveform_single_carrier.py:70-127, 449-456, 479-482, 458-477; modem/waveform.py:768-795; modem/waveform.py:263-301, 612-617, 619-640 [FMCWWaveform]. *)
Definition k_FMCWWaveform : schema := mkSchema "FMCWWaveform" ["CommunicationWaveform"; "FilteredSingleCarrierWaveform"] true
  [("modulation_order", Req TInt); ("synchronization", Req (TObj "Synchronization"));
   ("channel_estimation", Req (TObj "ChannelEstimation"));
   ("channel_equalization", Req (TObj "ChannelEqualization")); ("num_preamble_symbols", Req TInt);
   ("num_data_symbols", Req TInt); ("num_postamble_symbols", Req TInt);
   ("guard_interval", Req TFloat); ("pilot_rate", Req TInt); ("pilot_symbol_sequence", Req TAny);
   ("repeat_pilot_symbol_sequence", Req TBool); ("num_samples_per_chirp", Req TInt)]
  [wr "modulation_order" "modulation_order" WInt; wr "synchronization" "synchronization" WObj;
   wr "channel_estimation" "channel_estimation" WObj;
   wr "channel_equalization" "channel_equalization" WObj;
   wr "num_preamble_symbols" "num_preamble_symbols" WInt;
   wr "num_data_symbols" "num_data_symbols" WInt;
   wr "num_postamble_symbols" "num_postamble_symbols" WInt;
   wr "guard_interval" "guard_interval" WFloat; wr "pilot_rate" "pilot_rate" WInt;
   wr "num_samples_per_chirp" "num_samples_per_chirp" WInt]
  [rd "modulation_order" "modulation_order" RInt;
   rd "synchronization" "synchronization" (RObj "Synchronization");
   rd "channel_estimation" "channel_estimation" (RObj "ChannelEstimation");
   rd "channel_equalization" "channel_equalization" (RObj "ChannelEqualization");
   rd "num_preamble_symbols" "num_preamble_symbols" RInt;
   rd "num_data_symbols" "num_data_symbols" RInt;
   rd "num_postamble_symbols" "num_postamble_symbols" RInt;
   rd "guard_interval" "guard_interval" RFloat; rd "pilot_rate" "pilot_rate" RInt;
   rd "num_samples_per_chirp" "num_samples_per_chirp" RInt]
  [("pilot_symbol_sequence", (VObj "MappedPilotSymbolSequence" []));
   ("repeat_pilot_symbol_sequence", (VInt 1))]
  None.

(** modem/waveforms/orthogonal/waveform.py:73-77, 79-82, 84-90 [GridElement]. The link [type] does not clash with the attribute [type] of the tag. *)
Definition k_GridElement : schema := mkSchema "GridElement" [] true
  [("type", Req (TObj "ElementType")); ("repetitions", Req TInt)]
  [wr "type" "type" WObj; wr "repetitions" "repetitions" WInt]
  [rd "type" "type" (RObj "ElementType"); rd "repetitions" "repetitions" RInt]
  []
  None.

(** core/factory.py:127-129, 131-134 [ElementType]. Any SerializableEnum. *)
Definition k_ElementType : schema := mkSchema "ElementType" ["ElementType"] true
  [("value", Req TInt)]
  [wr "value" "value" WInt]
  [rd "value" "value" RInt]
  []
  None.

(** core/factory.py:127-129, 131-134 [PrefixType]. *)
Definition k_PrefixType : schema := mkSchema "PrefixType" ["PrefixType"] true
  [("value", Req TInt)]
  [wr "value" "value" WInt]
  [rd "value" "value" RInt]
  []
  None.

(** core/factory.py:127-129, 131-134 [MixerType]. *)
Definition k_MixerType : schema := mkSchema "MixerType" ["MixerType"] true
  [("value", Req TInt)]
  [wr "value" "value" WInt]
  [rd "value" "value" RInt]
  []
  None.

(** core/factory.py:127-129, 131-134 [GainControlType]. *)
Definition k_GainControlType : schema := mkSchema "GainControlType" ["GainControlType"] true
  [("value", Req TInt)]
  [wr "value" "value" WInt]
  [rd "value" "value" RInt]
  []
  None.

(** core/factory.py:127-129, 131-134 [QuantizerType]. *)
Definition k_QuantizerType : schema := mkSchema "QuantizerType" ["QuantizerType"] true
  [("value", Req TInt)]
  [wr "value" "value" WInt]
  [rd "value" "value" RInt]
  []
  None.

(** core/factory.py:127-129, 131-134 [TDLType]. *)
Definition k_TDLType : schema := mkSchema "TDLType" ["TDLType"] true
  [("value", Req TInt)]
  [wr "value" "value" WInt]
  [rd "value" "value" RInt]
  []
  None.

(** core/factory.py:127-129, 131-134 [Cost259Type]. *)
Definition k_Cost259Type : schema := mkSchema "Cost259Type" ["Cost259Type"] true
  [("value", Req TInt)]
  [wr "value" "value" WInt]
  [rd "value" "value" RInt]
  []
  None.

(** modem/waveforms/orthogonal/waveform.py:118-128, 224-229, 231-239 [GridResource]. *)
Definition k_GridResource : schema := mkSchema "GridResource" [] true
  [("repetitions", Req TInt); ("prefix_type", Req (TObj "PrefixType"));
   ("prefix_ratio", Req TFloat); ("elements", Req (TSeq "GridElement"))]
  [wr "repetitions" "repetitions" WInt; wr "prefix_type" "prefix_type" WObj;
   wr "prefix_ratio" "prefix_ratio" WFloat; wr "elements" "elements" WSeq]
  [rd "repetitions" "repetitions" RInt; rd "prefix_type" "prefix_type" (RObj "PrefixType");
   rd "prefix_ratio" "prefix_ratio" RFloat; rd "elements" "elements" (RSeq "GridElement")]
  []
  None.

(** modem/waveforms/orthogonal/waveform.py:468-487, 639-642, 644-650; modem/waveforms/orthogonal/waveform.py:256-273, 438-441 [SymbolSection]. *)
Definition k_SymbolSection : schema := mkSchema "SymbolSection" ["GridSection"] true
  [("num_repetitions", Req TInt); ("sample_offset", Req TInt); ("pattern", Req (TArr Int64))]
  [wr "num_repetitions" "num_repetitions" WInt; wr "sample_offset" "sample_offset" WInt;
   wr "pattern" "pattern" (WArr None)]
  [rd "num_repetitions" "num_repetitions" RInt; rd "sample_offset" "sample_offset" RInt;
   rd "pattern" "pattern" (RArr Int64)]
  []
  None.

(** modem/waveforms/orthogonal/waveform.py:658-665, 705-708, 710-716; modem/waveforms/orthogonal/waveform.py:256-273, 438-441 [GuardSection]. *)
Definition k_GuardSection : schema := mkSchema "GuardSection" ["GridSection"] true
  [("duration", Req TFloat); ("num_repetitions", Req TInt); ("sample_offset", Req TInt)]
  [wr "duration" "duration" WFloat; wr "num_repetitions" "num_repetitions" WInt]
  [rd "duration" "duration" RFloat; rd "num_repetitions" "num_repetitions" RInt]
  [("sample_offset", (VInt 0))]
  None.

(** modem/waveforms/orthogonal/waveform.py:727-746, 893-896, 898-901; modem/waveforms/orthogonal/waveform.py:256-273, 438-441 [PilotSection]. *)
Definition k_PilotSection : schema := mkSchema "PilotSection" ["GridSection"; "PilotSection"] true
  [("pilot_elements", Opt (TObj "Symbols")); ("num_repetitions", Req TInt);
   ("sample_offset", Req TInt)]
  [wr_opt "pilot_elements" "pilot_elements" WObj]
  [rd_def "pilot_elements" "pilot_elements" (RObj "Symbols") VNone]
  [("num_repetitions", (VInt 1)); ("sample_offset", (VInt 0))]
  None.

(** modem/waveforms/orthogonal/ofdm.py:39-95, 179-181; modem/waveforms/orthogonal/waveform.py:959-995, 1366-1373, 1393-1396, 1375-1391; modem/waveform.py:768-795; modem/waveform.py:263-301, 612-617, 619-640 [OFDMWaveform]. *)
Definition k_OFDMWaveform : schema := mkSchema "OFDMWaveform" ["CommunicationWaveform"; "OrthogonalWaveform"; "OFDMWaveform"] true
  [("modulation_order", Req TInt); ("synchronization", Req (TObj "Synchronization"));
   ("channel_estimation", Req (TObj "ChannelEstimation"));
   ("channel_equalization", Req (TObj "ChannelEqualization")); ("num_subcarriers", Req TInt);
   ("grid_resources", Req (TSeq "GridResource")); ("grid_structure", Req (TSeq "GridSection"));
   ("pilot_section", Opt (TObj "PilotSection")); ("pilot_symbol_sequence", Req TAny);
   ("repeat_pilot_symbol_sequence", Req TBool); ("dc_suppression", Req TBool)]
  [wr "modulation_order" "modulation_order" WInt; wr "synchronization" "synchronization" WObj;
   wr "channel_estimation" "channel_estimation" WObj;
   wr "channel_equalization" "channel_equalization" WObj;
   wr "num_subcarriers" "num_subcarriers" WInt; wr "grid_resources" "grid_resources" WSeq;
   wr "grid_structure" "grid_structure" WSeq; wr_opt "pilot_section" "pilot_section" WObj]
  [rd "modulation_order" "modulation_order" RInt;
   rd "synchronization" "synchronization" (RObj "Synchronization");
   rd "channel_estimation" "channel_estimation" (RObj "ChannelEstimation");
   rd "channel_equalization" "channel_equalization" (RObj "ChannelEqualization");
   rd "num_subcarriers" "num_subcarriers" RInt;
   rd "grid_resources" "grid_resources" (RSeq "GridResource");
   rd "grid_structure" "grid_structure" (RSeq "GridSection");
   rd_def "pilot_section" "pilot_section" (RObj "PilotSection") VNone]
  [("pilot_symbol_sequence", (VObj "MappedPilotSymbolSequence" []));
   ("repeat_pilot_symbol_sequence", (VInt 1)); ("dc_suppression", (VInt 1))]
  None.

(** modem/waveforms/orthogonal/waveform.py:959-995, 1366-1373, 1393-1396, 1375-1391; modem/waveform.py:768-795; modem/waveform.py:263-301, 612-617, 619-640 [OCDMWaveform]. *)
Definition k_OCDMWaveform : schema := mkSchema "OCDMWaveform" ["CommunicationWaveform"; "OrthogonalWaveform"] true
  [("modulation_order", Req TInt); ("synchronization", Req (TObj "Synchronization"));
   ("channel_estimation", Req (TObj "ChannelEstimation"));
   ("channel_equalization", Req (TObj "ChannelEqualization")); ("num_subcarriers", Req TInt);
   ("grid_resources", Req (TSeq "GridResource")); ("grid_structure", Req (TSeq "GridSection"));
   ("pilot_section", Opt (TObj "PilotSection")); ("pilot_symbol_sequence", Req TAny);
   ("repeat_pilot_symbol_sequence", Req TBool)]
  [wr "modulation_order" "modulation_order" WInt; wr "synchronization" "synchronization" WObj;
   wr "channel_estimation" "channel_estimation" WObj;
   wr "channel_equalization" "channel_equalization" WObj;
   wr "num_subcarriers" "num_subcarriers" WInt; wr "grid_resources" "grid_resources" WSeq;
   wr "grid_structure" "grid_structure" WSeq; wr_opt "pilot_section" "pilot_section" WObj]
  [rd "modulation_order" "modulation_order" RInt;
   rd "synchronization" "synchronization" (RObj "Synchronization");
   rd "channel_estimation" "channel_estimation" (RObj "ChannelEstimation");
   rd "channel_equalization" "channel_equalization" (RObj "ChannelEqualization");
   rd "num_subcarriers" "num_subcarriers" RInt;
   rd "grid_resources" "grid_resources" (RSeq "GridResource");
   rd "grid_structure" "grid_structure" (RSeq "GridSection");
   rd_def "pilot_section" "pilot_section" (RObj "PilotSection") VNone]
  [("pilot_symbol_sequence", (VObj "MappedPilotSymbolSequence" []));
   ("repeat_pilot_symbol_sequence", (VInt 1))]
  None.

(** modem/waveforms/orthogonal/ofdm.py:39-95, 179-181; modem/waveforms/orthogonal/waveform.py:959-995, 1366-1373, 1393-1396, 1375-1391; modem/waveform.py:768-795; modem/waveform.py:263-301, 612-617, 619-640 [OTFSWaveform]. *)
Definition k_OTFSWaveform : schema := mkSchema "OTFSWaveform" ["CommunicationWaveform"; "OrthogonalWaveform"; "OFDMWaveform"] true
  [("modulation_order", Req TInt); ("synchronization", Req (TObj "Synchronization"));
   ("channel_estimation", Req (TObj "ChannelEstimation"));
   ("channel_equalization", Req (TObj "ChannelEqualization")); ("num_subcarriers", Req TInt);
   ("grid_resources", Req (TSeq "GridResource")); ("grid_structure", Req (TSeq "GridSection"));
   ("pilot_section", Opt (TObj "PilotSection")); ("pilot_symbol_sequence", Req TAny);
   ("repeat_pilot_symbol_sequence", Req TBool); ("dc_suppression", Req TBool)]
  [wr "modulation_order" "modulation_order" WInt; wr "synchronization" "synchronization" WObj;
   wr "channel_estimation" "channel_estimation" WObj;
   wr "channel_equalization" "channel_equalization" WObj;
   wr "num_subcarriers" "num_subcarriers" WInt; wr "grid_resources" "grid_resources" WSeq;
   wr "grid_structure" "grid_structure" WSeq; wr_opt "pilot_section" "pilot_section" WObj]
  [rd "modulation_order" "modulation_order" RInt;
   rd "synchronization" "synchronization" (RObj "Synchronization");
   rd "channel_estimation" "channel_estimation" (RObj "ChannelEstimation");
   rd "channel_equalization" "channel_equalization" (RObj "ChannelEqualization");
   rd "num_subcarriers" "num_subcarriers" RInt;
   rd "grid_resources" "grid_resources" (RSeq "GridResource");
   rd "grid_structure" "grid_structure" (RSeq "GridSection");
   rd_def "pilot_section" "pilot_section" (RObj "PilotSection") VNone]
  [("pilot_symbol_sequence", (VObj "MappedPilotSymbolSequence" []));
   ("repeat_pilot_symbol_sequence", (VInt 1)); ("dc_suppression", (VInt 1))]
  None.

(** modem/waveforms/ieee_5gnr.py:204-235, 243-245, 247-254; modem/waveforms/orthogonal/ofdm.py:39-95, 179-181; modem/waveforms/orthogonal/waveform.py:959-995, 1366-1373, 1393-1396, 1375-1391; modem/waveform.py:768-795; modem/waveform.py:263-301, 612-617, 619-640 [NRSlot]. Only the fields a user sets after construction are listed besides the size. *)
Definition k_NRSlot : schema := mkSchema "NRSlot" ["CommunicationWaveform"; "OrthogonalWaveform"; "OFDMWaveform"] true
  [("num_resource_blocks", Req TInt); ("channel_estimation", Req (TObj "ChannelEstimation"));
   ("channel_equalization", Req (TObj "ChannelEqualization"))]
  [wr "num_resource_blocks" "num_resource_blocks" WInt]
  [rd "num_resource_blocks" "num_resource_blocks" RInt]
  [("channel_estimation", (VObj "ChannelEstimation" []));
   ("channel_equalization", (VObj "ChannelEqualization" []))]
  None.

(** modem/symbols.py:142-168, 311-313, 315-318 [Symbols]. *)
Definition k_Symbols : schema := mkSchema "Symbols" ["Symbols"] true
  [("symbols", Req (TArr Complex128))]
  [wr "symbols" "symbols" (WArr None)]
  [rd "symbols" "symbols" (RArr Complex128)]
  []
  None.

(** modem/symbols.py:326-343, 403-405, 407-411; modem/symbols.py:142-168, 311-313, 315-318 [StatedSymbols]. *)
Definition k_StatedSymbols : schema := mkSchema "StatedSymbols" ["Symbols"] true
  [("symbols", Req (TArr Complex128)); ("states", Req (TArr Complex128))]
  [wr "symbols" "symbols" (WArr None); wr "states" "states" (WArr None)]
  [rd "symbols" "symbols" (RArr Complex128); rd "states" "states" (RArr Complex128)]
  []
  None.

(** modem/precoding/dft.py:41-57, 93-95, 97-100; modem/precoding/symbol_precoding.py:29-31; core/precoding.py:79-81; core/precoding.py:47-49; modem/precoding/symbol_precoding.py:71-73; core/precoding.py:99-101 [DFT]. *)
Definition k_DFT : schema := mkSchema "DFT" ["TransmitSymbolEncoder"; "ReceiveSymbolDecoder"] true
  [("fft_norm", Req TStr)]
  [wr "fft_norm" "fft_norm" WStr]
  [rd "fft_norm" "fft_norm" RStr]
  []
  None.

(** modem/precoding/ratio_combining.py:67-69, 71-74; modem/precoding/symbol_precoding.py:71-73; core/precoding.py:99-101; core/precoding.py:47-49 [MaximumRatioCombining]. *)
Definition k_MaximumRatioCombining : schema := mkSchema "MaximumRatioCombining" ["ReceiveSymbolDecoder"] true
  []
  []
  []
  []
  None.

(** modem/precoding/single_carrier.py:63-65, 67-70; modem/precoding/symbol_precoding.py:71-73; core/precoding.py:99-101; core/precoding.py:47-49 [SingleCarrier]. *)
Definition k_SingleCarrier : schema := mkSchema "SingleCarrier" ["ReceiveSymbolDecoder"] true
  []
  []
  []
  []
  None.

(** modem/precoding/space_time_block_coding.py:30-34, 147-149, 151-154; modem/precoding/symbol_precoding.py:29-31; core/precoding.py:79-81; core/precoding.py:47-49; modem/precoding/symbol_precoding.py:71-73; core/precoding.py:99-101 [Alamouti]. *)
Definition k_Alamouti : schema := mkSchema "Alamouti" ["TransmitSymbolEncoder"; "ReceiveSymbolDecoder"] true
  []
  []
  []
  []
  None.

(** modem/precoding/space_time_block_coding.py:363-365, 367-370; modem/precoding/symbol_precoding.py:29-31; core/precoding.py:79-81; core/precoding.py:47-49; modem/precoding/symbol_precoding.py:71-73; core/precoding.py:99-101 [Ganesan]. *)
Definition k_Ganesan : schema := mkSchema "Ganesan" ["TransmitSymbolEncoder"; "ReceiveSymbolDecoder"] true
  []
  []
  []
  []
  None.

(** modem/frame_generator/frame_generator.py:65-67, 69-72 [FrameGeneratorStub]. *)
Definition k_FrameGeneratorStub : schema := mkSchema "FrameGeneratorStub" ["FrameGenerator"] true
  []
  []
  []
  []
  None.

(** modem/modem.py:83-132, 134-142, 144-164; core/device.py:165-173, 175-176, 178-181 [CommunicationTransmissionFrame]. *)
Definition k_CommunicationTransmissionFrame : schema := mkSchema "CommunicationTransmissionFrame" ["Transmission"] true
  [("signal", Req (TObj "Signal")); ("bits", Req (TArr Int64)); ("encoded_bits", Req (TArr Int64));
   ("bit_block_size", Req TInt); ("code_block_size", Req TInt); ("symbols", Req (TObj "Symbols"));
   ("encoded_symbols", Req (TObj "Symbols")); ("timestamp", Req TFloat)]
  [wr "signal" "signal" WObj; wr "bits" "bits" (WArr None);
   wr "encoded_bits" "encoded_bits" (WArr None); wr "bit_block_size" "bit_block_size" WInt;
   wr "code_block_size" "code_block_size" WInt; wr "symbols" "symbols" WObj;
   wr "encoded_symbols" "encoded_symbols" WObj; wr "timestamp" "timestamp" WFloat]
  [rd "signal" "signal" (RObj "Signal"); rd "bits" "bits" (RArr Int64);
   rd "encoded_bits" "encoded_bits" (RArr Int64); rd "bit_block_size" "bit_block_size" RInt;
   rd "code_block_size" "code_block_size" RInt; rd "symbols" "symbols" (RObj "Symbols");
   rd "encoded_symbols" "encoded_symbols" (RObj "Symbols"); rd "timestamp" "timestamp" RFloat]
  []
  None.

(** modem/modem.py:177-191, 231-233, 235-242; core/device.py:165-173, 175-176, 178-181 [CommunicationTransmission]. *)
Definition k_CommunicationTransmission : schema := mkSchema "CommunicationTransmission" ["Transmission"] true
  [("signal", Req (TObj "Signal")); ("frames", Req (TSeq "CommunicationTransmissionFrame"))]
  [wr "signal" "signal" WObj; wr "frames" "frames" WSeq]
  [rd "signal" "signal" (RObj "Signal");
   rd "frames" "frames" (RSeq "CommunicationTransmissionFrame")]
  []
  None.

(** modem/modem.py:279-339, 341-351, 353-379; core/device.py:165-173, 175-176, 178-181 [CommunicationReceptionFrame]. *)
Definition k_CommunicationReceptionFrame : schema := mkSchema "CommunicationReceptionFrame" ["Reception"] true
  [("signal", Req (TObj "Signal")); ("decoded_signal", Req (TObj "Signal"));
   ("symbols", Req (TObj "Symbols")); ("decoded_symbols", Req (TObj "Symbols"));
   ("equalized_symbols", Req (TObj "Symbols")); ("encoded_bits", Req (TArr Int64));
   ("decoded_bits", Req (TArr Int64)); ("code_block_size", Req TInt); ("bit_block_size", Req TInt);
   ("timestamp", Req TFloat)]
  [wr "signal" "signal" WObj; wr "decoded_signal" "decoded_signal" WObj;
   wr "symbols" "symbols" WObj; wr "decoded_symbols" "decoded_symbols" WObj;
   wr "equalized_symbols" "equalized_symbols" WObj; wr "encoded_bits" "encoded_bits" (WArr None);
   wr "decoded_bits" "decoded_bits" (WArr None); wr "code_block_size" "code_block_size" WInt;
   wr "bit_block_size" "bit_block_size" WInt; wr "timestamp" "timestamp" WFloat]
  [rd "signal" "signal" (RObj "Signal"); rd "decoded_signal" "decoded_signal" (RObj "Signal");
   rd "symbols" "symbols" (RObj "Symbols");
   rd "decoded_symbols" "decoded_symbols" (RObj "Symbols");
   rd "equalized_symbols" "equalized_symbols" (RObj "Symbols");
   rd "encoded_bits" "encoded_bits" (RArr Int64); rd "decoded_bits" "decoded_bits" (RArr Int64);
   rd "code_block_size" "code_block_size" RInt; rd "bit_block_size" "bit_block_size" RInt;
   rd "timestamp" "timestamp" RFloat]
  []
  None.

(** modem/modem.py:392-406, 482-484, 486-493; core/device.py:165-173, 175-176, 178-181 [CommunicationReception]. *)
Definition k_CommunicationReception : schema := mkSchema "CommunicationReception" ["Reception"] true
  [("signal", Req (TObj "Signal")); ("frames", Req (TSeq "CommunicationReceptionFrame"))]
  [wr "signal" "signal" WObj; wr "frames" "frames" WSeq]
  [rd "signal" "signal" (RObj "Signal"); rd "frames" "frames" (RSeq "CommunicationReceptionFrame")]
  []
  None.

(** core/antennas.py:415-430, 438-439, 441-444; core/antennas.py:55-74, 375-377; core/transformation.py:595-608, 786-787, 789-791; core/transformation.py:506-507 [IdealAntenna]. *)
Definition k_IdealAntenna : schema := mkSchema "IdealAntenna" ["Antenna"] true
  [("mode", Req TInt); ("pose", Req (TArr Float64))]
  [wr "mode" "mode" WInt; wr "pose" "pose" (WArr None)]
  [rd "mode" "mode" RInt; rd "pose" "pose" (RArr Float64)]
  []
  None.

(** core/antennas.py:536-551, 562-563, 565-568; core/antennas.py:55-74, 375-377; core/transformation.py:595-608, 786-787, 789-791; core/transformation.py:506-507 [PatchAntenna]. *)
Definition k_PatchAntenna : schema := mkSchema "PatchAntenna" ["Antenna"] true
  [("mode", Req TInt); ("pose", Req (TArr Float64))]
  [wr "mode" "mode" WInt; wr "pose" "pose" (WArr None)]
  [rd "mode" "mode" RInt; rd "pose" "pose" (RArr Float64)]
  []
  None.

(** core/antennas.py:590-605, 616-617, 619-622; core/antennas.py:55-74, 375-377; core/transformation.py:595-608, 786-787, 789-791; core/transformation.py:506-507 [Dipole]. *)
Definition k_Dipole : schema := mkSchema "Dipole" ["Antenna"] true
  [("mode", Req TInt); ("pose", Req (TArr Float64))]
  [wr "mode" "mode" WInt; wr "pose" "pose" (WArr None)]
  [rd "mode" "mode" RInt; rd "pose" "pose" (RArr Float64)]
  []
  None.

(** core/antennas.py:465-494, 512-514, 516-520; core/antennas.py:55-74, 375-377; core/transformation.py:595-608, 786-787, 789-791; core/transformation.py:506-507 [LinearAntenna]. *)
Definition k_LinearAntenna : schema := mkSchema "LinearAntenna" ["Antenna"] true
  [("mode", Req TInt); ("pose", Req (TArr Float64)); ("slant", Req TFloat)]
  [wr "mode" "mode" WInt; wr "pose" "pose" (WArr None); wr "slant" "slant" WFloat]
  [rd "mode" "mode" RInt; rd "pose" "pose" (RArr Float64); rd "slant" "slant" RFloat]
  []
  None.

(** core/antennas.py:1307-1339, 1412-1416, 1418-1424; core/antennas.py:1239-1249; core/transformation.py:595-608, 786-787, 789-791; core/transformation.py:506-507 [UniformArray]. The three integer dimensions are written and read as float64. *)
Definition k_UniformArray : schema := mkSchema "UniformArray" ["AntennaArray"] true
  [("pose", Req (TArr Float64)); ("dimensions", Req TNum); ("spacing", Req TFloat);
   ("element", Req (TObj "Antenna"))]
  [wr "pose" "pose" (WArr None); wr "dimensions" "dimensions" (WArr (Some Float64));
   wr "spacing" "spacing" WFloat; wr "element" "element" WObj]
  [rd "pose" "pose" (RArr Float64); rd "dimensions" "dimensions" (RArr Float64);
   rd "spacing" "spacing" RFloat; rd "element" "element" (RObj "Antenna")]
  []
  None.

(** core/antennas.py:1432-1455, 1474-1477, 1479-1485; core/antennas.py:1239-1249; core/transformation.py:595-608, 786-787, 789-791; core/transformation.py:506-507 [CustomAntennaArray]. *)
Definition k_CustomAntennaArray : schema := mkSchema "CustomAntennaArray" ["AntennaArray"] true
  [("antennas", Req (TSeq "Antenna")); ("pose", Req (TArr Float64))]
  [wr "antennas" "antennas" WSeq; wr "pose" "pose" (WArr None)]
  [rd "antennas" "antennas" (RSeq "Antenna"); rd "pose" "pose" (RArr Float64)]
  []
  None.

(** core/channel.py:76-105, 541-543, 545-551 [ChannelStateInformation]. *)
Definition k_ChannelStateInformation : schema := mkSchema "ChannelStateInformation" [] true
  [("state_format", Req TInt); ("state", Req (TArr Complex128))]
  [wr "state_format" "state_format" WInt; wr "state" "state" (WArr None)]
  [rd "state_format" "state_format" RInt; rd "state" "state" (RArr Complex128)]
  []
  None.

(** core/transformation.py:493-494, 496-498 [Transformation]. *)
Definition k_Transformation : schema := mkSchema "Transformation" ["Transformation"] true
  [("matrix", Req (TArr Float64))]
  [wr "matrix" "matrix" (WArr None)]
  [rd "matrix" "matrix" (RArr Float64)]
  []
  None.

(** core/random_node.py:25-34, 53-55, 61-64, 57-59 [RandomRealization]. *)
Definition k_RandomRealization : schema := mkSchema "RandomRealization" [] true
  [("seed", Req TInt)]
  [wr "seed" "seed" WInt]
  [rd "seed" "seed" RInt]
  []
  None.

(** core/signal_model.py:718-721, 723-728 [SignalBlock]. *)
Definition k_SignalBlock : schema := mkSchema "SignalBlock" ["SignalBlock"] true
  [("samples", Req (TArr Complex128)); ("offset", Req TInt)]
  [wr "samples" "samples" (WArr None); wr "offset" "offset" WInt]
  [rd "samples" "samples" (RArr Complex128); rd "offset" "offset" RInt]
  []
  None.

(** core/signal_model.py:1562-1568, 1570-1582; core/signal_model.py:718-721, 723-728 [DenseSignal]. *)
Definition k_DenseSignal : schema := mkSchema "DenseSignal" ["Signal"] true
  [("samples", Req (TArr Complex128)); ("sampling_rate", Req TFloat);
   ("carrier_frequency", Req TFloat); ("noise_power", Req TFloat); ("delay", Req TFloat)]
  [wr "samples" "samples" (WArr None); wr "sampling_rate" "sampling_rate" WFloat;
   wr "carrier_frequency" "carrier_frequency" WFloat; wr "noise_power" "noise_power" WFloat;
   wr "delay" "delay" WFloat]
  [rd "samples" "samples" (RArr Complex128); rd "sampling_rate" "sampling_rate" RFloat;
   rd "carrier_frequency" "carrier_frequency" RFloat; rd "noise_power" "noise_power" RFloat;
   rd "delay" "delay" RFloat]
  []
  None.

(** core/signal_model.py:1612-1663, 2641-2648, 2650-2659 [SparseSignal]. num_streams is written but never read. *)
Definition k_SparseSignal : schema := mkSchema "SparseSignal" ["Signal"] true
  [("sampling_rate", Req TFloat); ("carrier_frequency", Req TFloat); ("delay", Req TFloat);
   ("noise_power", Req TFloat); ("blocks", Req (TSeq "SignalBlock"))]
  [wr "sampling_rate" "sampling_rate" WFloat; wr "carrier_frequency" "carrier_frequency" WFloat;
   wr "delay" "delay" WFloat; wr "noise_power" "noise_power" WFloat; wr "blocks" "blocks" WSeq]
  [rd "sampling_rate" "sampling_rate" RFloat; rd "carrier_frequency" "carrier_frequency" RFloat;
   rd "delay" "delay" RFloat; rd "noise_power" "noise_power" RFloat;
   rd "blocks" "blocks" (RSeq "SignalBlock")]
  []
  None.

(** simulation/rf/signal.py:284-290, 292-309; core/signal_model.py:1562-1568, 1570-1582; core/signal_model.py:718-721, 723-728 [RFSignal]. *)
Definition k_RFSignal : schema := mkSchema "RFSignal" ["Signal"] true
  [("samples", Req (TArr Complex128)); ("sampling_rate", Req TFloat);
   ("carrier_frequencies", Req (TArr Float64)); ("noise_powers", Req (TArr Float64));
   ("delay", Req TFloat)]
  [wr "samples" "samples" (WArr None); wr "sampling_rate" "sampling_rate" WFloat;
   wr "carrier_frequencies" "carrier_frequencies" (WArr None);
   wr "noise_powers" "noise_powers" (WArr None); wr "delay" "delay" WFloat]
  [rd "samples" "samples" (RArr Complex128); rd "sampling_rate" "sampling_rate" RFloat;
   rd "carrier_frequencies" "carrier_frequencies" (RArr Float64);
   rd "noise_powers" "noise_powers" (RArr Float64); rd "delay" "delay" RFloat]
  []
  None.

(** core/device.py:355-365, 385-386, 388-391 [DeviceInput]. *)
Definition k_DeviceInput : schema := mkSchema "DeviceInput" [] true
  [("impinging_signals", Req (TSeq "Signal"))]
  [wr "impinging_signals" "impinging_signals" WSeq]
  [rd "impinging_signals" "impinging_signals" (RSeq "Signal")]
  []
  None.

(** core/device.py:399-421, 436-438, 440-446; core/device.py:355-365, 385-386, 388-391 [ProcessedDeviceInput]. *)
Definition k_ProcessedDeviceInput : schema := mkSchema "ProcessedDeviceInput" [] true
  [("impinging_signals", Req (TSeq "Signal")); ("operator_inputs", Req (TSeq "Signal"))]
  [wr "impinging_signals" "impinging_signals" WSeq; wr "operator_inputs" "operator_inputs" WSeq]
  [rd "impinging_signals" "impinging_signals" (RSeq "Signal");
   rd "operator_inputs" "operator_inputs" (RSeq "Signal")]
  []
  None.

(** core/operators.py:55-68, 87-93, 95-104; core/operators.py:29-37, 48-49; core/device.py:887-914, 1028-1034, 1036-1043; core/random_node.py:74-87; core/device.py:543-555, 582-585, 592-596, 587-590 [SilentTransmitter]. *)
Definition k_SilentTransmitter : schema := mkSchema "SilentTransmitter" ["Transmitter"] true
  [("num_samples", Req TInt); ("selected_transmit_ports", Opt (TArr Int64));
   ("carrier_frequency", Opt TFloat); ("seed", Opt TInt)]
  [wr "num_samples" "num_samples" WInt;
   wr_opt "selected_transmit_ports" "selected_transmit_ports" (WArr None)]
  [rd "num_samples" "num_samples" RInt;
   rd_def "selected_transmit_ports" "selected_transmit_ports" (RArr Int64) VNone]
  [("carrier_frequency", VNone); ("seed", VNone)]
  None.

(** core/operators.py:112-125, 154-156, 158-163; core/operators.py:29-37, 48-49; core/device.py:887-914, 1028-1034, 1036-1043; core/random_node.py:74-87; core/device.py:543-555, 582-585, 592-596, 587-590 [SignalTransmitter]. *)
Definition k_SignalTransmitter : schema := mkSchema "SignalTransmitter" ["Transmitter"] true
  [("signal", Req (TObj "Signal")); ("selected_transmit_ports", Opt (TArr Int64));
   ("carrier_frequency", Opt TFloat); ("seed", Opt TInt)]
  [wr "signal" "signal" WObj]
  [rd "signal" "signal" (RObj "Signal")]
  [("selected_transmit_ports", VNone); ("carrier_frequency", VNone); ("seed", VNone)]
  None.

(** core/operators.py:172-186, 219-226, 228-240; core/operators.py:29-37, 48-49; core/device.py:605-632, 748-754, 756-763; core/random_node.py:74-87; core/device.py:543-555, 582-585, 592-596, 587-590 [SignalReceiver]. The ports are written as float64 and read as int64. *)
Definition k_SignalReceiver : schema := mkSchema "SignalReceiver" ["Receiver"] true
  [("num_samples", Req TInt); ("selected_receive_ports", Opt (TArr Int64));
   ("expected_power", Req TFloat); ("carrier_frequency", Opt TFloat); ("seed", Opt TInt)]
  [wr "num_samples" "num_samples" WInt;
   wr_opt "selected_receive_ports" "selected_receive_ports" (WArr (Some Float64));
   wr "expected_power" "expected_power" WFloat]
  [rd "num_samples" "num_samples" RInt;
   rd_def "selected_receive_ports" "selected_receive_ports" (RArr Int64) VNone;
   rd "expected_power" "expected_power" RFloat]
  [("carrier_frequency", VNone); ("seed", VNone)]
  None.

(** radar/cube.py:207-295, 438-444, 446-455 [RadarCube]. *)
Definition k_RadarCube : schema := mkSchema "RadarCube" ["RadarCube"] true
  [("data", Req (TArr Float64)); ("angle_bins", Req (TArr Float64));
   ("doppler_bins", Req (TArr Float64)); ("range_bins", Req (TArr Float64));
   ("carrier_frequency", Req TFloat)]
  [wr "data" "data" (WArr None); wr "angle_bins" "angle_bins" (WArr None);
   wr "doppler_bins" "doppler_bins" (WArr None); wr "range_bins" "range_bins" (WArr None);
   wr "carrier_frequency" "carrier_frequency" WFloat]
  [rd "data" "data" (RArr Float64); rd "angle_bins" "angle_bins" (RArr Float64);
   rd "doppler_bins" "doppler_bins" (RArr Float64); rd "range_bins" "range_bins" (RArr Float64);
   rd "carrier_frequency" "carrier_frequency" RFloat]
  []
  None.

(** radar/detection.py:47-78, 155-159, 161-167 [PointDetection]. *)
Definition k_PointDetection : schema := mkSchema "PointDetection" ["PointDetection"] true
  [("position", Req (TArr Float64)); ("velocity", Req (TArr Float64)); ("power", Req TFloat)]
  [wr "position" "position" (WArr None); wr "velocity" "velocity" (WArr None);
   wr "power" "power" WFloat]
  [rd "position" "position" (RArr Float64); rd "velocity" "velocity" (RArr Float64);
   rd "power" "power" RFloat]
  []
  None.

(** radar/detection.py:176-200, 273-276, 278-285; core/visualize.py:260-262 [RadarPointCloud]. *)
Definition k_RadarPointCloud : schema := mkSchema "RadarPointCloud" ["RadarPointCloud"] true
  [("max_range", Req TFloat); ("points", Req (TSeq "PointDetection"))]
  [wr "max_range" "max_range" WFloat; wr "points" "points" WSeq]
  [rd "max_range" "max_range" RFloat; rd "points" "points" (RSeq "PointDetection")]
  []
  None.

(** radar/detection.py:314-335, 414-418, 420-428 [ThresholdDetector]. *)
Definition k_ThresholdDetector : schema := mkSchema "ThresholdDetector" ["RadarDetector"] true
  [("min_power", Req TFloat); ("normalize", Req TBool); ("peak_detection", Req TBool)]
  [wr "min_power" "min_power" WFloat; wr "normalize" "normalize" WInt;
   wr "peak_detection" "peak_detection" WInt]
  [rd "min_power" "min_power" RFloat; rd "normalize" "normalize" RBool;
   rd "peak_detection" "peak_detection" RBool]
  []
  None.

(** radar/detection.py:457-459, 461-464 [MaxDetector]. *)
Definition k_MaxDetector : schema := mkSchema "MaxDetector" ["RadarDetector"] true
  []
  []
  []
  []
  None.

(** radar/detection.py:505-523, 634-638, 640-646 [CFARDetector]. *)
Definition k_CFARDetector : schema := mkSchema "CFARDetector" ["RadarDetector"] true
  [("num_training_cells", Req (TArr Int64)); ("num_guard_cells", Req (TArr Int64));
   ("pfa", Req TFloat)]
  [wr "num_training_cells" "num_training_cells" (WArr None);
   wr "num_guard_cells" "num_guard_cells" (WArr None); wr "pfa" "pfa" WFloat]
  [rd "num_training_cells" "num_training_cells" (RArr Int64);
   rd "num_guard_cells" "num_guard_cells" (RArr Int64); rd "pfa" "pfa" RFloat]
  []
  None.

(** radar/fmcw.py:53-89, 335-340, 342-350 [FMCW]. *)
Definition k_FMCW : schema := mkSchema "FMCW" ["RadarWaveform"] true
  [("num_chirps", Req TInt); ("chirp_duration", Req TFloat); ("pulse_rep_interval", Req TFloat);
   ("adc_sampling_rate", Req TFloat)]
  [wr "num_chirps" "num_chirps" WInt; wr "chirp_duration" "chirp_duration" WFloat;
   wr "pulse_rep_interval" "pulse_rep_interval" WFloat;
   wr "adc_sampling_rate" "adc_sampling_rate" WFloat]
  [rd "num_chirps" "num_chirps" RInt; rd "chirp_duration" "chirp_duration" RFloat;
   rd "pulse_rep_interval" "pulse_rep_interval" RFloat;
   rd "adc_sampling_rate" "adc_sampling_rate" RFloat]
  []
  None.

(** radar/radar.py:266-282, 299-304, 306-312; core/device.py:165-173, 175-176, 178-181 [RadarReception]. *)
Definition k_RadarReception : schema := mkSchema "RadarReception" ["Reception"] true
  [("signal", Req (TObj "Signal")); ("cube", Req (TObj "RadarCube"));
   ("cloud", Opt (TObj "RadarPointCloud"))]
  [wr "signal" "signal" WObj; wr "cube" "cube" WObj; wr_opt "cloud" "cloud" WObj]
  [rd "signal" "signal" (RObj "Signal"); rd "cube" "cube" (RObj "RadarCube");
   rd_def "cloud" "cloud" (RObj "RadarPointCloud") VNone]
  []
  None.

(** radar/radar.py:604-664, 796-800, 802-807; radar/radar.py:331-379, 487-495, 497-511; core/device.py:887-914, 1028-1034, 1036-1043; core/random_node.py:74-87; core/device.py:543-555, 582-585, 592-596, 587-590; core/device.py:605-632, 748-754, 756-763 [Radar]. Receiver and Transmitter both write the carrier frequency. *)
Definition k_Radar : schema := mkSchema "Radar" ["Transmitter"; "Receiver"; "Radar"] true
  [("carrier_frequency", Opt TFloat); ("selected_receive_ports", Opt (TArr Int64));
   ("selected_transmit_ports", Opt (TArr Int64));
   ("receive_beamformer", Opt (TObj "ReceiveBeamformer"));
   ("detector", Opt (TObj "RadarDetector")); ("min_range", Req TFloat);
   ("waveform", Opt (TObj "RadarWaveform")); ("seed", Opt TInt)]
  [wr_opt "carrier_frequency" "carrier_frequency" WFloat;
   wr_opt "selected_receive_ports" "selected_receive_ports" (WArr None);
   wr_opt "selected_transmit_ports" "selected_transmit_ports" (WArr None);
   wr_opt "receive_beamformer" "receive_beamformer" WObj; wr_opt "detector" "detector" WObj;
   wr "min_range" "min_range" WFloat; wr_opt "waveform" "waveform" WObj;
   wr_opt "carrier_frequency" "carrier_frequency" WFloat]
  [rd_def "carrier_frequency" "carrier_frequency" RFloat VNone;
   rd_def "selected_receive_ports" "selected_receive_ports" (RArr Int64) VNone;
   rd_def "selected_transmit_ports" "selected_transmit_ports" (RArr Int64) VNone;
   rd_def "receive_beamformer" "receive_beamformer" (RObj "ReceiveBeamformer") VNone;
   rd_def "detector" "detector" (RObj "RadarDetector") VNone; rd "min_range" "min_range" RFloat;
   rd_def "waveform" "waveform" (RObj "RadarWaveform") VNone]
  [("seed", VNone)]
  None.

(** jcas/matched_filtering.py:57-126, 333-340, 342-353; jcas/jcas.py:91-150, 169-171, 173-176; radar/radar.py:331-379, 487-495, 497-511; core/device.py:887-914, 1028-1034, 1036-1043; core/random_node.py:74-87; core/device.py:543-555, 582-585, 592-596, 587-590; core/device.py:605-632, 748-754, 756-763; modem/modem.py:648-711, 890-895, 897-908; modem/modem.py:511-550, 615-620, 630-634, 622-628; modem/modem.py:1012-1063, 1269-1273, 1275-1285 [MatchedFilterJcas]. *)
Definition k_MatchedFilterJcas : schema := mkSchema "MatchedFilterJcas" ["Transmitter"; "Receiver"] true
  [("carrier_frequency", Opt TFloat); ("selected_receive_ports", Opt (TArr Int64));
   ("selected_transmit_ports", Opt (TArr Int64));
   ("receive_beamformer", Opt (TObj "ReceiveBeamformer"));
   ("detector", Opt (TObj "RadarDetector")); ("min_range", Req TFloat); ("max_range", Req TFloat);
   ("max_velocity", Req TFloat); ("velocity_resolution", Req TFloat);
   ("waveform", Opt (TObj "CommunicationWaveform")); ("encoders", Req (TSeq "Encoder"));
   ("bits_source", Req TAny); ("seed", Opt TInt)]
  [wr_opt "carrier_frequency" "carrier_frequency" WFloat;
   wr_opt "selected_receive_ports" "selected_receive_ports" (WArr None);
   wr_opt "selected_transmit_ports" "selected_transmit_ports" (WArr None);
   wr_opt "receive_beamformer" "receive_beamformer" WObj; wr_opt "detector" "detector" WObj;
   wr "min_range" "min_range" WFloat; wr "max_range" "max_range" WFloat;
   wr "max_velocity" "max_velocity" WFloat; wr "velocity_resolution" "velocity_resolution" WFloat;
   wr_opt "waveform" "waveform" WObj; wr_opt "carrier_frequency" "carrier_frequency" WFloat]
  [rd_def "carrier_frequency" "carrier_frequency" RFloat VNone;
   rd_def "selected_receive_ports" "selected_receive_ports" (RArr Int64) VNone;
   rd_def "selected_transmit_ports" "selected_transmit_ports" (RArr Int64) VNone;
   rd_def "receive_beamformer" "receive_beamformer" (RObj "ReceiveBeamformer") VNone;
   rd_def "detector" "detector" (RObj "RadarDetector") VNone; rd "min_range" "min_range" RFloat;
   rd "max_range" "max_range" RFloat; rd "max_velocity" "max_velocity" RFloat;
   rd "velocity_resolution" "velocity_resolution" RFloat;
   rd_def "waveform" "waveform" (RObj "CommunicationWaveform") VNone]
  [("encoders", (VSeq [])); ("bits_source", (VObj "RandomBitsSource" [("seed", VNone)]));
   ("seed", VNone)]
  None.

(** jcas/ofdm_radar.py:37-94, 257-260; jcas/jcas.py:91-150, 169-171, 173-176; radar/radar.py:331-379, 487-495, 497-511; core/device.py:887-914, 1028-1034, 1036-1043; core/random_node.py:74-87; core/device.py:543-555, 582-585, 592-596, 587-590; core/device.py:605-632, 748-754, 756-763; modem/modem.py:648-711, 890-895, 897-908; modem/modem.py:511-550, 615-620, 630-634, 622-628; modem/modem.py:1012-1063, 1269-1273, 1275-1285 [OFDMRadar]. Neither serialize nor _DeserializeParameters mention the waveform. *)
Definition k_OFDMRadar : schema := mkSchema "OFDMRadar" ["Transmitter"; "Receiver"] true
  [("carrier_frequency", Opt TFloat); ("selected_receive_ports", Opt (TArr Int64));
   ("selected_transmit_ports", Opt (TArr Int64));
   ("receive_beamformer", Opt (TObj "ReceiveBeamformer"));
   ("detector", Opt (TObj "RadarDetector")); ("min_range", Req TFloat);
   ("waveform", Opt (TObj "CommunicationWaveform")); ("encoders", Req (TSeq "Encoder"));
   ("bits_source", Req TAny); ("seed", Opt TInt)]
  [wr_opt "carrier_frequency" "carrier_frequency" WFloat;
   wr_opt "selected_receive_ports" "selected_receive_ports" (WArr None);
   wr_opt "selected_transmit_ports" "selected_transmit_ports" (WArr None);
   wr_opt "receive_beamformer" "receive_beamformer" WObj; wr_opt "detector" "detector" WObj;
   wr "min_range" "min_range" WFloat; wr_opt "carrier_frequency" "carrier_frequency" WFloat]
  [rd_def "carrier_frequency" "carrier_frequency" RFloat VNone;
   rd_def "selected_receive_ports" "selected_receive_ports" (RArr Int64) VNone;
   rd_def "selected_transmit_ports" "selected_transmit_ports" (RArr Int64) VNone;
   rd_def "receive_beamformer" "receive_beamformer" (RObj "ReceiveBeamformer") VNone;
   rd_def "detector" "detector" (RObj "RadarDetector") VNone; rd "min_range" "min_range" RFloat]
  [("waveform", VNone); ("encoders", (VSeq []));
   ("bits_source", (VObj "RandomBitsSource" [("seed", VNone)])); ("seed", VNone)]
  None.

(** beamforming/beamformer.py:101-114, 130-132, 134-137; beamforming/beamformer.py:44-46 [SphericalFocus]. *)
Definition k_SphericalFocus : schema := mkSchema "SphericalFocus" ["BeamFocus"] true
  [("angles", Req (TArr Float64))]
  [wr "angles" "angles" (WArr None)]
  [rd "angles" "angles" (RArr Float64)]
  []
  None.

(** beamforming/beamformer.py:146-165, 196-199, 201-207; beamforming/beamformer.py:44-46 [CoordinateFocus]. *)
Definition k_CoordinateFocus : schema := mkSchema "CoordinateFocus" ["BeamFocus"] true
  [("direction", Req (TArr Float64)); ("reference", Req TStr)]
  [wr "direction" "direction" (WArr None); wr "reference" "reference" WStr]
  [rd "direction" "direction" (RArr Float64); rd "reference" "reference" RStr]
  []
  None.

(** beamforming/capon.py:28-38, 101-103, 105-108; beamforming/beamformer.py:399-407; core/precoding.py:316-318; core/precoding.py:99-101; core/precoding.py:47-49 [CaponBeamformer]. *)
Definition k_CaponBeamformer : schema := mkSchema "CaponBeamformer" ["ReceiveBeamformer"] true
  [("loading", Req TFloat)]
  [wr "loading" "loading" WFloat]
  [rd "loading" "loading" RFloat]
  []
  None.

(** beamforming/conventional.py:25-28, 131-133, 135-138; beamforming/beamformer.py:215-222; core/precoding.py:292-294; core/precoding.py:79-81; core/precoding.py:47-49; beamforming/beamformer.py:399-407; core/precoding.py:316-318; core/precoding.py:99-101 [ConventionalBeamformer]. *)
Definition k_ConventionalBeamformer : schema := mkSchema "ConventionalBeamformer" ["TransmitBeamformer"; "ReceiveBeamformer"] true
  []
  []
  []
  []
  None.

(** beamforming/nullsteeringbeamformer.py:24-26, 103-105, 107-110; beamforming/beamformer.py:215-222; core/precoding.py:292-294; core/precoding.py:79-81; core/precoding.py:47-49; beamforming/beamformer.py:399-407; core/precoding.py:316-318; core/precoding.py:99-101 [NullSteeringBeamformer]. *)
Definition k_NullSteeringBeamformer : schema := mkSchema "NullSteeringBeamformer" ["TransmitBeamformer"; "ReceiveBeamformer"] true
  []
  []
  []
  []
  None.

(** modem/modem.py:916-979, 985-988, 997-1003, 990-995; modem/modem.py:648-711, 890-895, 897-908; modem/modem.py:511-550, 615-620, 630-634, 622-628; core/random_node.py:74-87; core/device.py:887-914, 1028-1034, 1036-1043; core/device.py:543-555, 582-585, 592-596, 587-590 [TransmittingModem]. The precoders, stored in reverse order on loading, are treated by C25 and left out here. *)
Definition k_TransmittingModem : schema := mkSchema "TransmittingModem" ["Transmitter"] true
  [("carrier_frequency", Opt TFloat); ("selected_transmit_ports", Opt (TArr Int64));
   ("encoders", Req (TSeq "Encoder")); ("waveform", Opt (TObj "CommunicationWaveform"));
   ("frame_generator", Req (TObj "FrameGenerator")); ("allow_padding", Req TBool);
   ("seed", Opt TInt); ("bits_source", Req (TObj "BitsSource"))]
  [wr_opt "carrier_frequency" "carrier_frequency" WFloat;
   wr_opt "selected_transmit_ports" "selected_transmit_ports" (WArr None);
   wr "encoders" "bit_coding" WSeq; wr_opt "waveform" "waveform" WObj;
   wr "frame_generator" "frame_generator" WObj; wr "bits_source" "bits_source" WObj]
  [rd_def "carrier_frequency" "carrier_frequency" RFloat VNone;
   rd_def "selected_transmit_ports" "selected_transmit_ports" (RArr Int64) VNone;
   rd "encoders" "bit_coding" (RSeq "Encoder");
   rd_def "waveform" "waveform" (RObj "CommunicationWaveform") VNone;
   rd "frame_generator" "frame_generator" (RObj "FrameGenerator");
   rd "bits_source" "bits_source" (RObj "BitsSource")]
  [("allow_padding", (VInt 1)); ("seed", VNone)]
  None.

(** modem/modem.py:1293-1346, 1352-1355, 1364-1368, 1357-1362; modem/modem.py:1012-1063, 1269-1273, 1275-1285; modem/modem.py:511-550, 615-620, 630-634, 622-628; core/random_node.py:74-87; core/device.py:605-632, 748-754, 756-763; core/device.py:543-555, 582-585, 592-596, 587-590 [ReceivingModem]. The decoders are treated by C25 and left out here. *)
Definition k_ReceivingModem : schema := mkSchema "ReceivingModem" ["Receiver"] true
  [("carrier_frequency", Opt TFloat); ("selected_receive_ports", Opt (TArr Int64));
   ("encoders", Req (TSeq "Encoder")); ("waveform", Opt (TObj "CommunicationWaveform"));
   ("frame_generator", Req (TObj "FrameGenerator")); ("allow_padding", Req TBool);
   ("seed", Opt TInt)]
  [wr_opt "carrier_frequency" "carrier_frequency" WFloat;
   wr_opt "selected_receive_ports" "selected_receive_ports" (WArr None);
   wr "encoders" "bit_coding" WSeq; wr_opt "waveform" "waveform" WObj;
   wr "frame_generator" "frame_generator" WObj]
  [rd_def "carrier_frequency" "carrier_frequency" RFloat VNone;
   rd_def "selected_receive_ports" "selected_receive_ports" (RArr Int64) VNone;
   rd "encoders" "bit_coding" (RSeq "Encoder");
   rd_def "waveform" "waveform" (RObj "CommunicationWaveform") VNone;
   rd "frame_generator" "frame_generator" (RObj "FrameGenerator")]
  [("allow_padding", (VInt 1)); ("seed", VNone)]
  None.

(** modem/modem.py:1374-1459, 1461-1464, 1473-1477, 1466-1471; modem/modem.py:916-979, 985-988, 997-1003, 990-995; modem/modem.py:648-711, 890-895, 897-908; modem/modem.py:511-550, 615-620, 630-634, 622-628; core/random_node.py:74-87; core/device.py:887-914, 1028-1034, 1036-1043; core/device.py:543-555, 582-585, 592-596, 587-590; modem/modem.py:1293-1346, 1352-1355, 1364-1368, 1357-1362; modem/modem.py:1012-1063, 1269-1273, 1275-1285; core/device.py:605-632, 748-754, 756-763 [DuplexModem]. Both base classes write the common fields. *)
Definition k_DuplexModem : schema := mkSchema "DuplexModem" ["Transmitter"; "Receiver"] true
  [("carrier_frequency", Opt TFloat); ("selected_transmit_ports", Opt (TArr Int64));
   ("selected_receive_ports", Opt (TArr Int64)); ("encoders", Req (TSeq "Encoder"));
   ("waveform", Opt (TObj "CommunicationWaveform"));
   ("frame_generator", Req (TObj "FrameGenerator")); ("allow_padding", Req TBool);
   ("seed", Opt TInt); ("bits_source", Req (TObj "BitsSource"))]
  [wr_opt "carrier_frequency" "carrier_frequency" WFloat;
   wr_opt "selected_transmit_ports" "selected_transmit_ports" (WArr None);
   wr_opt "selected_receive_ports" "selected_receive_ports" (WArr None);
   wr "encoders" "bit_coding" WSeq; wr_opt "waveform" "waveform" WObj;
   wr "frame_generator" "frame_generator" WObj; wr "bits_source" "bits_source" WObj;
   wr "encoders" "bit_coding" WSeq; wr_opt "waveform" "waveform" WObj;
   wr "frame_generator" "frame_generator" WObj;
   wr_opt "carrier_frequency" "carrier_frequency" WFloat]
  [rd_def "carrier_frequency" "carrier_frequency" RFloat VNone;
   rd_def "selected_transmit_ports" "selected_transmit_ports" (RArr Int64) VNone;
   rd_def "selected_receive_ports" "selected_receive_ports" (RArr Int64) VNone;
   rd "encoders" "bit_coding" (RSeq "Encoder");
   rd_def "waveform" "waveform" (RObj "CommunicationWaveform") VNone;
   rd "frame_generator" "frame_generator" (RObj "FrameGenerator");
   rd "bits_source" "bits_source" (RObj "BitsSource")]
  [("allow_padding", (VInt 1)); ("seed", VNone)]
  None.

(** modem/modem.py:1483-1569, 1588-1591, 1600-1604, 1593-1598; modem/modem.py:916-979, 985-988, 997-1003, 990-995; modem/modem.py:648-711, 890-895, 897-908; modem/modem.py:511-550, 615-620, 630-634, 622-628; core/random_node.py:74-87; core/device.py:887-914, 1028-1034, 1036-1043; core/device.py:543-555, 582-585, 592-596, 587-590; modem/modem.py:1293-1346, 1352-1355, 1364-1368, 1357-1362; modem/modem.py:1012-1063, 1269-1273, 1275-1285; core/device.py:605-632, 748-754, 756-763 [SimplexLink]. Both base classes write the common fields. *)
Definition k_SimplexLink : schema := mkSchema "SimplexLink" ["Transmitter"; "Receiver"] true
  [("carrier_frequency", Opt TFloat); ("selected_transmit_ports", Opt (TArr Int64));
   ("selected_receive_ports", Opt (TArr Int64)); ("encoders", Req (TSeq "Encoder"));
   ("waveform", Opt (TObj "CommunicationWaveform"));
   ("frame_generator", Req (TObj "FrameGenerator")); ("allow_padding", Req TBool);
   ("seed", Opt TInt); ("bits_source", Req (TObj "BitsSource"))]
  [wr_opt "carrier_frequency" "carrier_frequency" WFloat;
   wr_opt "selected_transmit_ports" "selected_transmit_ports" (WArr None);
   wr_opt "selected_receive_ports" "selected_receive_ports" (WArr None);
   wr "encoders" "bit_coding" WSeq; wr_opt "waveform" "waveform" WObj;
   wr "frame_generator" "frame_generator" WObj; wr "bits_source" "bits_source" WObj;
   wr "encoders" "bit_coding" WSeq; wr_opt "waveform" "waveform" WObj;
   wr "frame_generator" "frame_generator" WObj;
   wr_opt "carrier_frequency" "carrier_frequency" WFloat]
  [rd_def "carrier_frequency" "carrier_frequency" RFloat VNone;
   rd_def "selected_transmit_ports" "selected_transmit_ports" (RArr Int64) VNone;
   rd_def "selected_receive_ports" "selected_receive_ports" (RArr Int64) VNone;
   rd "encoders" "bit_coding" (RSeq "Encoder");
   rd_def "waveform" "waveform" (RObj "CommunicationWaveform") VNone;
   rd "frame_generator" "frame_generator" (RObj "FrameGenerator");
   rd "bits_source" "bits_source" (RObj "BitsSource")]
  [("allow_padding", (VInt 1)); ("seed", VNone)]
  None.

(** simulation/rf/noise/model.py:166-174, 180-182, 184-187; simulation/rf/noise/model.py:99-107; core/random_node.py:74-87 [AWGN]. *)
Definition k_AWGN : schema := mkSchema "AWGN" ["NoiseModel"] true
  [("seed", Opt TInt)]
  []
  []
  [("seed", VNone)]
  None.

(** simulation/rf/noise/model.py:33-49, 71-74, 83-89, 76-81; core/random_node.py:25-34, 53-55, 61-64, 57-59 [AWGNRealization]. *)
Definition k_AWGNRealization : schema := mkSchema "AWGNRealization" ["NoiseRealization"] true
  [("seed", Req TInt); ("power", Req TFloat)]
  [wr "seed" "seed" WInt; wr "power" "power" WFloat]
  [rd "seed" "seed" RInt; rd "power" "power" RFloat]
  []
  None.

(** simulation/rf/noise/level.py:81-88, 117-119, 121-124 [ThermalNoise]. *)
Definition k_ThermalNoise : schema := mkSchema "ThermalNoise" ["NoiseLevel"] true
  [("temparature", Req TFloat)]
  [wr "temparature" "temparature" WFloat]
  [rd "temparature" "temparature" RFloat]
  []
  None.

(** simulation/rf/noise/level.py:132-138, 190-192, 194-197 [N0]. *)
Definition k_N0 : schema := mkSchema "N0" ["NoiseLevel"] true
  [("power", Req TFloat)]
  [wr "power" "power" WFloat]
  [rd "power" "power" RFloat]
  []
  None.

(** simulation/rf/noise/level.py:207-232, 295-298, 300-305 [SNR]. The constructor also accepts a transmitter or receiver as reference, which cannot be loaded again. *)
Definition k_SNR : schema := mkSchema "SNR" ["NoiseLevel"] true
  [("snr", Req TFloat); ("reference", Req (TObj "Device")); ("expected_channel_scale", Req TFloat)]
  [wr "snr" "snr" WFloat; wr "reference" "reference" WObj]
  [rd "snr" "snr" RFloat; rd "reference" "reference" (RObj "Device")]
  [("expected_channel_scale", (VFloat f_one))]
  None.

(** simulation/rf/noise/phase_noise.py:79-81, 83-86; core/random_node.py:74-87 [NoPhaseNoise]. *)
Definition k_NoPhaseNoise : schema := mkSchema "NoPhaseNoise" ["PhaseNoise"] true
  []
  []
  []
  []
  None.

(** simulation/rf/noise/phase_noise.py:213-234, 328-332, 334-340; core/random_node.py:74-87 [OscillatorPhaseNoise]. *)
Definition k_OscillatorPhaseNoise : schema := mkSchema "OscillatorPhaseNoise" ["PhaseNoise"] true
  [("K0", Req TFloat); ("K2", Req TFloat); ("K3", Req TFloat); ("seed", Opt TInt)]
  [wr "K0" "K0" WFloat; wr "K2" "K2" WFloat; wr "K3" "K3" WFloat]
  [rd "K0" "K0" RFloat; rd "K2" "K2" RFloat; rd "K3" "K3" RFloat]
  [("seed", VNone)]
  None.

(** simulation/rf/blocks/mixers.py:72-92, 156-162, 164-172; simulation/rf/block.py:84-107; core/random_node.py:74-87 [Mixer]. *)
Definition k_Mixer : schema := mkSchema "Mixer" ["RFBlock"] true
  [("type", Req (TObj "MixerType")); ("noise_model", Req (TObj "NoiseModel"));
   ("noise_level", Req (TObj "NoiseLevel")); ("seed", Opt TInt)]
  [wr "type" "type" WObj; wr "noise_model" "noise_model" WObj; wr "noise_level" "noise_level" WObj;
   wr_opt "seed" "seed" WInt]
  [rd "type" "type" (RObj "MixerType"); rd "noise_model" "noise_model" (RObj "NoiseModel");
   rd "noise_level" "noise_level" (RObj "NoiseLevel"); rd_def "seed" "seed" RInt VNone]
  []
  None.

(** simulation/rf/blocks/mixers.py:217-243, 316-323, 325-334; simulation/rf/block.py:84-107; core/random_node.py:74-87 [IdealMixer]. *)
Definition k_IdealMixer : schema := mkSchema "IdealMixer" ["RFBlock"] true
  [("type", Req (TObj "MixerType")); ("lo_frequency", Req TFloat);
   ("noise_model", Req (TObj "NoiseModel")); ("noise_level", Req (TObj "NoiseLevel"));
   ("seed", Opt TInt)]
  [wr "type" "type" WObj; wr "lo_frequency" "lo_frequency" WFloat;
   wr "noise_model" "noise_model" WObj; wr "noise_level" "noise_level" WObj;
   wr_opt "seed" "seed" WInt]
  [rd "type" "type" (RObj "MixerType"); rd "lo_frequency" "lo_frequency" RFloat;
   rd "noise_model" "noise_model" (RObj "NoiseModel");
   rd "noise_level" "noise_level" (RObj "NoiseLevel"); rd_def "seed" "seed" RInt VNone]
  []
  None.

(** simulation/rf/blocks/amps.py:42-74, 211-217, 219-225; simulation/rf/block.py:84-107; core/random_node.py:74-87 [PowerAmplifier]. *)
Definition k_PowerAmplifier : schema := mkSchema "PowerAmplifier" ["RFBlock"] true
  [("gain", Req TFloat); ("noise_model", Req (TObj "NoiseModel"));
   ("noise_level", Req (TObj "NoiseLevel")); ("seed", Opt TInt)]
  [wr "gain" "gain" WFloat; wr "noise_model" "noise_model" WObj;
   wr "noise_level" "noise_level" WObj; wr_opt "seed" "seed" WInt]
  [rd "gain" "gain" RFloat; rd "noise_model" "noise_model" (RObj "NoiseModel");
   rd "noise_level" "noise_level" (RObj "NoiseLevel"); rd_def "seed" "seed" RInt VNone]
  []
  None.

(** simulation/rf/blocks/amps.py:235-268, 306-309, 311-320; simulation/rf/blocks/amps.py:42-74, 211-217, 219-225; simulation/rf/block.py:84-107; core/random_node.py:74-87 [ClippingPowerAmplifier]. *)
Definition k_ClippingPowerAmplifier : schema := mkSchema "ClippingPowerAmplifier" ["RFBlock"] true
  [("saturation_amplitude", Req TFloat); ("gain", Req TFloat);
   ("noise_model", Req (TObj "NoiseModel")); ("noise_level", Req (TObj "NoiseLevel"));
   ("seed", Opt TInt)]
  [wr "saturation_amplitude" "saturation_amplitude" WFloat; wr "gain" "gain" WFloat;
   wr "noise_model" "noise_model" WObj; wr "noise_level" "noise_level" WObj;
   wr_opt "seed" "seed" WInt]
  [rd "saturation_amplitude" "saturation_amplitude" RFloat; rd "gain" "gain" RFloat;
   rd "noise_model" "noise_model" (RObj "NoiseModel");
   rd "noise_level" "noise_level" (RObj "NoiseLevel"); rd_def "seed" "seed" RInt VNone]
  []
  None.

(** simulation/rf/blocks/amps.py:331-363, 395-398, 400-409; simulation/rf/blocks/amps.py:42-74, 211-217, 219-225; simulation/rf/block.py:84-107; core/random_node.py:74-87 [RappPowerAmplifier]. *)
Definition k_RappPowerAmplifier : schema := mkSchema "RappPowerAmplifier" ["RFBlock"] true
  [("smoothness_factor", Req TFloat); ("gain", Req TFloat);
   ("noise_model", Req (TObj "NoiseModel")); ("noise_level", Req (TObj "NoiseLevel"));
   ("seed", Opt TInt)]
  [wr "smoothness_factor" "smoothness_factor" WFloat; wr "gain" "gain" WFloat;
   wr "noise_model" "noise_model" WObj; wr "noise_level" "noise_level" WObj;
   wr_opt "seed" "seed" WInt]
  [rd "smoothness_factor" "smoothness_factor" RFloat; rd "gain" "gain" RFloat;
   rd "noise_model" "noise_model" (RObj "NoiseModel");
   rd "noise_level" "noise_level" (RObj "NoiseLevel"); rd_def "seed" "seed" RInt VNone]
  []
  None.

(** simulation/rf/blocks/amps.py:427-475, 528-534, 536-548; simulation/rf/blocks/amps.py:42-74, 211-217, 219-225; simulation/rf/block.py:84-107; core/random_node.py:74-87 [SalehPowerAmplifier]. *)
Definition k_SalehPowerAmplifier : schema := mkSchema "SalehPowerAmplifier" ["RFBlock"] true
  [("amplitude_alpha", Req TFloat); ("amplitude_beta", Req TFloat); ("phase_alpha", Req TFloat);
   ("phase_beta", Req TFloat); ("gain", Req TFloat); ("noise_model", Req (TObj "NoiseModel"));
   ("noise_level", Req (TObj "NoiseLevel")); ("seed", Opt TInt)]
  [wr "amplitude_alpha" "amplitude_alpha" WFloat; wr "amplitude_beta" "amplitude_beta" WFloat;
   wr "phase_alpha" "phase_alpha" WFloat; wr "phase_beta" "phase_beta" WFloat;
   wr "gain" "gain" WFloat; wr "noise_model" "noise_model" WObj;
   wr "noise_level" "noise_level" WObj; wr_opt "seed" "seed" WInt]
  [rd "amplitude_alpha" "amplitude_alpha" RFloat; rd "amplitude_beta" "amplitude_beta" RFloat;
   rd "phase_alpha" "phase_alpha" RFloat; rd "phase_beta" "phase_beta" RFloat;
   rd "gain" "gain" RFloat; rd "noise_model" "noise_model" (RObj "NoiseModel");
   rd "noise_level" "noise_level" (RObj "NoiseLevel"); rd_def "seed" "seed" RInt VNone]
  []
  None.

(** simulation/rf/blocks/amps.py:558-618, 640-645, 647-658; simulation/rf/blocks/amps.py:42-74, 211-217, 219-225; simulation/rf/block.py:84-107; core/random_node.py:74-87 [CustomPowerAmplifier]. The array [gain] is a link, the float [gain] an attribute. *)
Definition k_CustomPowerAmplifier : schema := mkSchema "CustomPowerAmplifier" ["RFBlock"] true
  [("input", Req (TArr Float64)); ("gains", Req (TArr Float64)); ("phases", Req (TArr Float64));
   ("gain", Req TFloat); ("noise_model", Req (TObj "NoiseModel"));
   ("noise_level", Req (TObj "NoiseLevel")); ("seed", Opt TInt)]
  [wr "input" "input" (WArr None); wr "gains" "gain" (WArr None); wr "phases" "phase" (WArr None);
   wr "gain" "gain" WFloat; wr "noise_model" "noise_model" WObj;
   wr "noise_level" "noise_level" WObj; wr_opt "seed" "seed" WInt]
  [rd "input" "input" (RArr Float64); rd "gains" "gain" (RArr Float64);
   rd "phases" "phase" (RArr Float64); rd "gain" "gain" RFloat;
   rd "noise_model" "noise_model" (RObj "NoiseModel");
   rd "noise_level" "noise_level" (RObj "NoiseLevel"); rd_def "seed" "seed" RInt VNone]
  []
  None.

(** simulation/rf/blocks/amps.py:669-682, 748-750, 752-755; simulation/rf/blocks/amps.py:42-74, 211-217, 219-225; simulation/rf/block.py:84-107; core/random_node.py:74-87 [MemoryPolynomialPowerAmplifier]. Not exported by a top-level package, hence not registered. *)
Definition k_MemoryPolynomialPowerAmplifier : schema := mkSchema "MemoryPolynomialPowerAmplifier" ["RFBlock"] false
  [("coeff_matrix", Req (TArr Complex128)); ("gain", Req TFloat);
   ("noise_model", Req (TObj "NoiseModel")); ("noise_level", Req (TObj "NoiseLevel"));
   ("seed", Opt TInt)]
  [wr "coeff_matrix" "coeff_matrix" (WArr None)]
  [rd "coeff_matrix" "coeff_matrix" (RArr Complex128)]
  [("gain", (VFloat f_one)); ("noise_model", (VObj "AWGN" [("seed", VNone)]));
   ("noise_level", (VObj "N0" [("power", VFloat f_zero)])); ("seed", VNone)]
  None.

(** simulation/rf/blocks/amps.py:764-775, 857-859, 861-864; simulation/rf/blocks/amps.py:42-74, 211-217, 219-225; simulation/rf/block.py:84-107; core/random_node.py:74-87 [MemoryCTPolynomialPowerAmplifier]. Not exported by a top-level package, hence not registered. *)
Definition k_MemoryCTPolynomialPowerAmplifier : schema := mkSchema "MemoryCTPolynomialPowerAmplifier" ["RFBlock"] false
  [("coeff_matrix", Req (TArr Complex128)); ("gain", Req TFloat);
   ("noise_model", Req (TObj "NoiseModel")); ("noise_level", Req (TObj "NoiseLevel"));
   ("seed", Opt TInt)]
  [wr "coeff_matrix" "coeff_matrix" (WArr None)]
  [rd "coeff_matrix" "coeff_matrix" (RArr Complex128)]
  [("gain", (VFloat f_one)); ("noise_model", (VObj "AWGN" [("seed", VNone)]));
   ("noise_level", (VObj "N0" [("power", VFloat f_zero)])); ("seed", VNone)]
  None.

(** simulation/rf/blocks/ramp.py:33-63, 213-220, 222-231; simulation/rf/block.py:84-107; core/random_node.py:74-87 [RampGenerator]. *)
Definition k_RampGenerator : schema := mkSchema "RampGenerator" ["RFBlock"] true
  [("num_chirps", Req TInt); ("chirp_bandwidth", Req TFloat); ("chirp_slope", Req TFloat);
   ("chirp_interval", Req TFloat); ("seed", Opt TInt); ("noise_model", Req (TObj "NoiseModel"));
   ("noise_level", Req (TObj "NoiseLevel"))]
  [wr "num_chirps" "num_chirps" WInt; wr "chirp_bandwidth" "chirp_bandwidth" WFloat;
   wr "chirp_slope" "chirp_slope" WFloat; wr "chirp_interval" "chirp_interval" WFloat;
   wr_opt "seed" "seed" WInt]
  [rd "num_chirps" "num_chirps" RInt; rd "chirp_bandwidth" "chirp_bandwidth" RFloat;
   rd "chirp_slope" "chirp_slope" RFloat; rd "chirp_interval" "chirp_interval" RFloat;
   rd_def "seed" "seed" RInt VNone]
  [("noise_model", (VObj "AWGN" [("seed", VNone)]));
   ("noise_level", (VObj "N0" [("power", VFloat f_zero)]))]
  None.

(** simulation/rf/blocks/ad.py:206-223, 250-253, 255-261; simulation/rf/blocks/ad.py:128-137 [Gain]. *)
Definition k_Gain : schema := mkSchema "Gain" ["GainControlBase"] true
  [("gain", Req TFloat); ("rescale_quantization", Req TBool)]
  [wr "gain" "gain" WFloat; wr "rescale_quantization" "rescale_quantization" WInt]
  [rd "gain" "gain" RFloat; rd "rescale_quantization" "rescale_quantization" RBool]
  []
  None.

(** simulation/rf/blocks/ad.py:270-296, 353-357, 359-366; simulation/rf/blocks/ad.py:128-137 [AutomaticGainControl]. *)
Definition k_AutomaticGainControl : schema := mkSchema "AutomaticGainControl" ["GainControlBase"] true
  [("agc_type", Req (TObj "GainControlType")); ("backoff", Req TFloat);
   ("rescale_quantization", Req TBool)]
  [wr "agc_type" "agc_type" WObj; wr "backoff" "backoff" WFloat;
   wr "rescale_quantization" "rescale_quantization" WInt]
  [rd "agc_type" "agc_type" (RObj "GainControlType"); rd "backoff" "backoff" RFloat;
   rd "rescale_quantization" "rescale_quantization" RBool]
  []
  None.

(** simulation/rf/blocks/ad.py:390-416, 610-615, 617-624; simulation/rf/blocks/ad.py:46-61; simulation/rf/block.py:84-107; core/random_node.py:74-87 [ADC]. *)
Definition k_ADC : schema := mkSchema "ADC" ["RFBlock"] true
  [("num_quantization_bits", Opt TInt); ("gain", Req (TObj "GainControlBase"));
   ("quantizer_type", Req (TObj "QuantizerType")); ("num_ports", Req TInt);
   ("noise_model", Req (TObj "NoiseModel")); ("noise_level", Req (TObj "NoiseLevel"));
   ("seed", Opt TInt)]
  [wr_opt "num_quantization_bits" "num_quantization_bits" WInt; wr "gain" "gain" WObj;
   wr "quantizer_type" "quantizer_type" WObj]
  [rd_def "num_quantization_bits" "num_quantization_bits" RInt VNone;
   rd "gain" "gain" (RObj "GainControlBase");
   rd "quantizer_type" "quantizer_type" (RObj "QuantizerType")]
  [("num_ports", (VInt 1)); ("noise_model", (VObj "AWGN" [("seed", VNone)]));
   ("noise_level", (VObj "N0" [("power", VFloat f_zero)])); ("seed", VNone)]
  None.

(** simulation/rf/blocks/ad.py:631-651, 673-681, 683-692; simulation/rf/blocks/ad.py:46-61; simulation/rf/block.py:84-107; core/random_node.py:74-87 [DAC]. *)
Definition k_DAC : schema := mkSchema "DAC" ["RFBlock"] true
  [("num_quantization_bits", Opt TInt); ("num_ports", Req TInt);
   ("noise_model", Req (TObj "NoiseModel")); ("noise_level", Req (TObj "NoiseLevel"));
   ("seed", Opt TInt)]
  [wr_opt "num_quantization_bits" "num_quantization_bits" WInt; wr "num_ports" "num_ports" WInt;
   wr "noise_model" "noise_model" WObj; wr "noise_level" "noise_level" WObj;
   wr_opt "seed" "seed" WInt]
  [rd_def "num_quantization_bits" "num_quantization_bits" RInt VNone;
   rd "num_ports" "num_ports" RInt; rd "noise_model" "noise_model" (RObj "NoiseModel");
   rd "noise_level" "noise_level" (RObj "NoiseLevel"); rd_def "seed" "seed" RInt VNone]
  []
  None.

(** simulation/rf/chain.py:106-114, 286-288, 290-296 [RFBlockReference]. Only the wrapped block is written, not its connections. *)
Definition k_RFBlockReference : schema := mkSchema "RFBlockReference" ["RFBlockReference"] true
  [("block", Req (TObj "RFBlock")); ("connections", Req TAny)]
  [wr "block" "block" WObj]
  [rd "block" "block" (RObj "RFBlock")]
  [("connections", (VSeq []))]
  None.

(** simulation/rf/chain.py:349-365, 663-675, 677-702; core/random_node.py:74-87 [RFChain]. Sharing of references between the lists is treated by C12 and not visible in this tree model. *)
Definition k_RFChain : schema := mkSchema "RFChain" ["RFChain"] true
  [("block_references", Req (TSeq "RFBlockReference"));
   ("dsp_input_blocks", Req (TSeq "RFBlockReference"));
   ("dsp_output_blocks", Req (TSeq "RFBlockReference"));
   ("rf_input_blocks", Req (TSeq "RFBlockReference"));
   ("rf_output_blocks", Req (TSeq "RFBlockReference"));
   ("rf_origin_blocks", Req (TSeq "RFBlockReference")); ("seed", Opt TInt)]
  [wr "block_references" "block_references" WSeq; wr "dsp_input_blocks" "dsp_input_blocks" WSeq;
   wr "dsp_output_blocks" "dsp_output_blocks" WSeq; wr "rf_input_blocks" "rf_input_blocks" WSeq;
   wr "rf_output_blocks" "rf_output_blocks" WSeq; wr "rf_origin_blocks" "rf_origin_blocks" WSeq;
   wr_opt "seed" "seed" WInt]
  [rd "block_references" "block_references" (RSeq "RFBlockReference");
   rd "dsp_input_blocks" "dsp_input_blocks" (RSeq "RFBlockReference");
   rd "dsp_output_blocks" "dsp_output_blocks" (RSeq "RFBlockReference");
   rd "rf_input_blocks" "rf_input_blocks" (RSeq "RFBlockReference");
   rd "rf_output_blocks" "rf_output_blocks" (RSeq "RFBlockReference");
   rd "rf_origin_blocks" "rf_origin_blocks" (RSeq "RFBlockReference");
   rd_def "seed" "seed" RInt VNone]
  []
  None.

(** simulation/rf/presets/ettus/x410.py:43-103, 105-109, 111-116; simulation/rf/chain.py:349-365, 663-675, 677-702; core/random_node.py:74-87 [X410]. Not exported by a top-level package, hence not registered. *)
Definition k_X410 : schema := mkSchema "X410" ["RFChain"] false
  [("carrier_frequency", Req TFloat); ("seed", Opt TInt); ("num_tx_channels", Req TInt);
   ("num_rx_channels", Req TInt); ("phase_noise", Req TBool)]
  [wr "carrier_frequency" "carrier_frequency" WFloat; wr_opt "seed" "seed" WInt]
  [rd "carrier_frequency" "carrier_frequency" RFloat; rd_def "seed" "seed" RInt VNone]
  [("num_tx_channels", (VInt 1)); ("num_rx_channels", (VInt 1)); ("phase_noise", (VInt 1))]
  None.

(** channel/ideal.py:141-143, 145-147; channel/channel.py:426-442, 721-723, 725-727 [IdealChannelRealization]. *)
Definition k_IdealChannelRealization : schema := mkSchema "IdealChannelRealization" ["ChannelRealization"] true
  [("gain", Req TFloat)]
  [wr "gain" "gain" WFloat]
  [rd "gain" "gain" RFloat]
  []
  None.

(** channel/ideal.py:157-159, 161-164; channel/channel.py:742-763, 975-979, 981-986; core/random_node.py:74-87 [IdealChannel]. *)
Definition k_IdealChannel : schema := mkSchema "IdealChannel" ["Channel"] true
  [("gain", Req TFloat); ("seed", Opt TInt)]
  [wr "gain" "gain" WFloat]
  [rd "gain" "gain" RFloat]
  [("seed", VNone)]
  None.

(** channel/delay/spatial.py:35-41; channel/delay/delay.py:180-200, 214-217, 219-224; channel/channel.py:426-442, 721-723, 725-727 [SpatialDelayChannelRealization]. Not exported by a top-level package, hence not registered. *)
Definition k_SpatialDelayChannelRealization : schema := mkSchema "SpatialDelayChannelRealization" ["ChannelRealization"] false
  [("model_propagation_loss", Req TBool); ("gain", Req TFloat)]
  [wr "model_propagation_loss" "model_propagation_loss" WInt; wr "gain" "gain" WFloat]
  [rd "model_propagation_loss" "model_propagation_loss" RBool; rd "gain" "gain" RFloat]
  []
  None.

(** channel/delay/random.py:32-48, 86-91, 93-102; channel/delay/delay.py:180-200, 214-217, 219-224; channel/channel.py:426-442, 721-723, 725-727 [RandomDelayChannelRealization]. Not exported by a top-level package, hence not registered. *)
Definition k_RandomDelayChannelRealization : schema := mkSchema "RandomDelayChannelRealization" ["ChannelRealization"] false
  [("consistent_realization", Req (TObj "ConsistentRealization"));
   ("delay_variable", Req (TObj "ConsistentUniform")); ("delay", Req TRange);
   ("model_propagation_loss", Req TBool); ("gain", Req TFloat)]
  [wr "consistent_realization" "consistent_realization" WObj;
   wr "delay_variable" "delay_variable" WObj; wr "delay" "delay" WRange;
   wr "model_propagation_loss" "model_propagation_loss" WInt; wr "gain" "gain" WFloat]
  [rd "consistent_realization" "consistent_realization" (RObj "ConsistentRealization");
   rd "delay_variable" "delay_variable" (RObj "ConsistentUniform"); rd "delay" "delay" RRange;
   rd "model_propagation_loss" "model_propagation_loss" RBool; rd "gain" "gain" RFloat]
  []
  None.

(** channel/delay/spatial.py:52-55; channel/delay/delay.py:232-257, 269-272, 274-281; channel/channel.py:742-763, 975-979, 981-986; core/random_node.py:74-87 [SpatialDelayChannel]. *)
Definition k_SpatialDelayChannel : schema := mkSchema "SpatialDelayChannel" ["Channel"] true
  [("model_propagation_loss", Req TBool); ("gain", Req TFloat); ("seed", Opt TInt)]
  [wr "model_propagation_loss" "model_propagation_loss" WInt; wr "gain" "gain" WFloat;
   wr_opt "seed" "seed" WInt]
  [rd "model_propagation_loss" "model_propagation_loss" RBool; rd "gain" "gain" RFloat;
   rd_def "seed" "seed" RInt VNone]
  []
  None.

(** channel/delay/random.py:112-151, 226-231, 233-242; channel/delay/delay.py:232-257, 269-272, 274-281; channel/channel.py:742-763, 975-979, 981-986; core/random_node.py:74-87 [RandomDelayChannel]. The variable is written but created anew by the constructor. *)
Definition k_RandomDelayChannel : schema := mkSchema "RandomDelayChannel" ["Channel"] true
  [("delay", Req TRange); ("decorrelation_distance", Req TFloat);
   ("model_propagation_loss", Req TBool); ("gain", Req TFloat); ("seed", Opt TInt);
   ("delay_variable", Req (TObj "ConsistentUniform"))]
  [wr "delay" "delay" WRange; wr "decorrelation_distance" "decorrelation_distance" WFloat;
   wr "model_propagation_loss" "model_propagation_loss" WInt; wr "gain" "gain" WFloat;
   wr_opt "seed" "seed" WInt; wr "delay_variable" "delay_variable" WObj]
  [rd "delay" "delay" RRange; rd "decorrelation_distance" "decorrelation_distance" RFloat;
   rd "model_propagation_loss" "model_propagation_loss" RBool; rd "gain" "gain" RFloat;
   rd_def "seed" "seed" RInt VNone]
  [("delay_variable", first_uniform)]
  None.

(** channel/consistent.py:33-48, 92-95, 97-103 [ConsistentUniform]. *)
Definition k_ConsistentUniform : schema := mkSchema "ConsistentUniform" ["ConsistentUniform"] true
  [("shape", Req (TArr Int64)); ("offset", Req TInt)]
  [wr "shape" "shape" (WArr None); wr "offset" "offset" WInt]
  [rd "shape" "shape" (RArr Int64); rd "offset" "offset" RInt]
  []
  None.

(** channel/consistent.py:165-173, 202-205, 207-213 [DualConsistentRealization]. *)
Definition k_DualConsistentRealization : schema := mkSchema "DualConsistentRealization" ["ConsistentRealization"] true
  [("frequencies", Req (TArr Float64)); ("phases", Req (TArr Float64))]
  [wr "frequencies" "frequencies" (WArr None); wr "phases" "phases" (WArr None)]
  [rd "frequencies" "frequencies" (RArr Float64); rd "phases" "phases" (RArr Float64)]
  []
  None.

(** channel/consistent.py:241-247, 253-255, 257-260 [StaticConsistentRealization]. *)
Definition k_StaticConsistentRealization : schema := mkSchema "StaticConsistentRealization" ["ConsistentRealization"] true
  [("scalar_samples", Req (TArr Float64))]
  [wr "scalar_samples" "scalar_samples" (WArr None)]
  [rd "scalar_samples" "scalar_samples" (RArr Float64)]
  []
  None.

(** channel/radar/multi.py:133-141, 167-169, 171-174 [FixedCrossSection]. *)
Definition k_FixedCrossSection : schema := mkSchema "FixedCrossSection" ["RadarCrossSectionModel"] true
  [("cross_section", Req TFloat)]
  [wr "cross_section" "cross_section" WFloat]
  [rd "cross_section" "cross_section" RFloat]
  []
  None.

(** simulation/animation.py:163-187, 207-212, 214-222 [LinearTrajectory]. *)
Definition k_LinearTrajectory : schema := mkSchema "LinearTrajectory" ["Trajectory"] true
  [("initial_pose", Req (TObj "Transformation")); ("final_pose", Req (TObj "Transformation"));
   ("duration", Req TFloat); ("start", Req TFloat)]
  [wr "initial_pose" "initial_pose" WObj; wr "final_pose" "final_pose" WObj;
   wr "duration" "duration" WFloat; wr "start" "start" WFloat]
  [rd "initial_pose" "initial_pose" (RObj "Transformation");
   rd "final_pose" "final_pose" (RObj "Transformation"); rd "duration" "duration" RFloat;
   rd "start" "start" RFloat]
  []
  None.

(** simulation/animation.py:231-237, 292-295, 297-303 [StaticTrajectory]. *)
Definition k_StaticTrajectory : schema := mkSchema "StaticTrajectory" ["Trajectory"] true
  [("pose", Req (TObj "Transformation")); ("velocity", Req (TArr Float64))]
  [wr "pose" "pose" WObj; wr "velocity" "velocity" (WArr None)]
  [rd "pose" "pose" (RObj "Transformation"); rd "velocity" "velocity" (RArr Float64)]
  []
  None.

(** simulation/animation.py:352-365, 414-417, 419-425 [BITrajectoryB]. Not exported by a top-level package, hence not registered. *)
Definition k_BITrajectoryB : schema := mkSchema "BITrajectoryB" ["Trajectory"] false
  [("height", Req TFloat); ("duration", Req TFloat)]
  [wr "height" "height" WFloat; wr "duration" "duration" WFloat]
  [rd "height" "height" RFloat; rd "duration" "duration" RFloat]
  []
  None.

(** channel/radar/multi.py:182-208, 230-234, 236-243; simulation/animation.py:311-321, 339-341, 343-346; channel/radar/multi.py:43-52, 94-96, 98-100 [VirtualRadarTarget]. *)
Definition k_VirtualRadarTarget : schema := mkSchema "VirtualRadarTarget" ["RadarTarget"] true
  [("static", Req TBool); ("cross_section", Req (TObj "RadarCrossSectionModel"));
   ("trajectory", Req (TObj "Trajectory"))]
  [wr "static" "static" WInt; wr "cross_section" "cross_section" WObj;
   wr "trajectory" "trajectory" WObj]
  [rd "static" "static" RBool; rd "cross_section" "cross_section" (RObj "RadarCrossSectionModel");
   rd "trajectory" "trajectory" (RObj "Trajectory")]
  []
  None.

(** channel/radar/multi.py:339-358, 436-443, 445-456; channel/radar/radar.py:200-210, 233-235; channel/channel.py:426-442, 721-723, 725-727 [MultiTargetRadarChannelRealization]. *)
Definition k_MultiTargetRadarChannelRealization : schema := mkSchema "MultiTargetRadarChannelRealization" ["ChannelRealization"] true
  [("gain", Req TFloat); ("consistent_realization", Req (TObj "ConsistentRealization"));
   ("phase_variable", Req (TObj "ConsistentUniform")); ("targets", Req (TSeq "RadarTarget"));
   ("interference", Req TBool); ("attenuate", Req TBool)]
  [wr "gain" "gain" WFloat; wr "consistent_realization" "consistent_realization" WObj;
   wr "phase_variable" "phase_variable" WObj; wr "targets" "targets" WSeq;
   wr "interference" "interference" WInt; wr "attenuate" "attenuate" WInt]
  [rd "gain" "gain" RFloat;
   rd "consistent_realization" "consistent_realization" (RObj "ConsistentRealization");
   rd "phase_variable" "phase_variable" (RObj "ConsistentUniform");
   rd "targets" "targets" (RSeq "RadarTarget"); rd "interference" "interference" RBool;
   rd "attenuate" "attenuate" RBool]
  []
  None.

(** channel/radar/multi.py:470-510, 588-593, 595-608; channel/radar/radar.py:670-691, 706-709, 711-718; channel/channel.py:742-763, 975-979, 981-986; core/random_node.py:74-87 [MultiTargetRadarChannel]. *)
Definition k_MultiTargetRadarChannel : schema := mkSchema "MultiTargetRadarChannel" ["Channel"] true
  [("gain", Req TFloat); ("seed", Opt TInt); ("attenuate", Req TBool); ("interference", Req TBool);
   ("decorrelation_distance", Req TFloat); ("targets", Req (TSeq "RadarTarget"))]
  [wr "gain" "gain" WFloat; wr_opt "seed" "seed" WInt; wr "attenuate" "attenuate" WInt;
   wr "interference" "interference" WInt;
   wr "decorrelation_distance" "decorrelation_distance" WFloat; wr "targets" "targets" WSeq]
  [rd "gain" "gain" RFloat; rd_def "seed" "seed" RInt VNone; rd "attenuate" "attenuate" RBool;
   rd "interference" "interference" RBool;
   rd "decorrelation_distance" "decorrelation_distance" RFloat;
   rd "targets" "targets" (RSeq "RadarTarget")]
  []
  None.

(** channel/fading/fading.py:97-105, 135-137, 139-144; channel/fading/fading.py:49-59 [CustomAntennaCorrelation]. *)
Definition k_CustomAntennaCorrelation : schema := mkSchema "CustomAntennaCorrelation" ["AntennaCorrelation"] true
  [("covariance_matrix", Req (TArr Complex128))]
  [wr "covariance_matrix" "covariance_matrix" (WArr None)]
  [rd "covariance_matrix" "covariance_matrix" (RArr Complex128)]
  []
  None.

(** channel/fading/fading.py:606-754, 930-941, 969-972, 943-967; channel/channel.py:742-763, 975-979, 981-986; core/random_node.py:74-87 [MultipathFadingChannel]. The raw optional line of sight Doppler is written unguarded; the angle is drawn again. *)
Definition k_MultipathFadingChannel : schema := mkSchema "MultipathFadingChannel" ["Channel"] true
  [("delays", Req (TArr Float64)); ("power_profile", Req (TArr Float64));
   ("rice_factors", Req (TArr Float64)); ("num_sinusoids", Req TInt);
   ("correlation_distance", Req TFloat); ("doppler_frequency", Req TFloat);
   ("los_doppler_frequency", Opt TFloat); ("antenna_correlation", Opt (TObj "AntennaCorrelation"));
   ("gain", Req TFloat); ("seed", Opt TInt); ("los_angle", Req TAny)]
  [wr "delays" "delays" (WArr None); wr "power_profile" "power_profile" (WArr None);
   wr "rice_factors" "rice_factors" (WArr None); wr "num_sinusoids" "num_sinusoids" WInt;
   wr "correlation_distance" "correlation_distance" WFloat;
   wr "doppler_frequency" "doppler_frequency" WFloat;
   wr "los_doppler_frequency" "los_doppler_frequency" WFloat;
   wr_opt "antenna_correlation" "antenna_correlation" WObj; wr "gain" "gain" WFloat;
   wr_opt "seed" "seed" WInt]
  [rd "delays" "delays" (RArr Float64); rd "power_profile" "power_profile" (RArr Float64);
   rd "rice_factors" "rice_factors" (RArr Float64); rd "num_sinusoids" "num_sinusoids" RInt;
   rd "correlation_distance" "correlation_distance" RFloat;
   rd "doppler_frequency" "doppler_frequency" RFloat;
   rd "los_doppler_frequency" "los_doppler_frequency" RFloat;
   rd_def "antenna_correlation" "antenna_correlation" (RObj "AntennaCorrelation") VNone;
   rd "gain" "gain" RFloat; rd_def "seed" "seed" RInt VNone]
  [("los_angle", (VStr "drawn at random"))]
  None.

(** channel/fading/exponential.py:29-117, 137-148, 150-169; channel/fading/fading.py:606-754, 930-941, 969-972, 943-967; channel/channel.py:742-763, 975-979, 981-986; core/random_node.py:74-87 [Exponential]. The property los_doppler_frequency falls back to the Doppler frequency. *)
Definition k_Exponential : schema := mkSchema "Exponential" ["Channel"] true
  [("tap_interval", Req TFloat); ("rms_delay", Req TFloat); ("correlation_distance", Req TFloat);
   ("num_sinusoids", Req TInt); ("los_angle", Req TFloat); ("doppler_frequency", Req TFloat);
   ("los_doppler_frequency", Opt TFloat); ("antenna_correlation", Opt (TObj "AntennaCorrelation"));
   ("gain", Req TFloat); ("seed", Opt TInt)]
  [wr "tap_interval" "tap_interval" WFloat; wr "rms_delay" "rms_delay" WFloat;
   wr "correlation_distance" "correlation_distance" WFloat;
   wr "num_sinusoids" "num_sinusoids" WInt; wr "los_angle" "los_angle" WFloat;
   wr "doppler_frequency" "doppler_frequency" WFloat;
   wr_alt "los_doppler_frequency" "los_doppler_frequency" WFloat "doppler_frequency";
   wr_opt "antenna_correlation" "antenna_correlation" WObj; wr "gain" "gain" WFloat;
   wr_opt "seed" "seed" WInt]
  [rd "tap_interval" "tap_interval" RFloat; rd "rms_delay" "rms_delay" RFloat;
   rd "correlation_distance" "correlation_distance" RFloat;
   rd "num_sinusoids" "num_sinusoids" RInt; rd "los_angle" "los_angle" RFloat;
   rd "doppler_frequency" "doppler_frequency" RFloat;
   rd "los_doppler_frequency" "los_doppler_frequency" RFloat;
   rd_def "antenna_correlation" "antenna_correlation" (RObj "AntennaCorrelation") VNone;
   rd "gain" "gain" RFloat; rd_def "seed" "seed" RInt VNone]
  []
  None.

(** channel/fading/cost259.py:42-227, 238-248, 250-268; channel/fading/fading.py:606-754, 930-941, 969-972, 943-967; channel/channel.py:742-763, 975-979, 981-986; core/random_node.py:74-87 [Cost259]. Types urban and rural; the hilly type overrides los_angle with a constant. *)
Definition k_Cost259 : schema := mkSchema "Cost259" ["Channel"] true
  [("model_type", Req (TObj "Cost259Type")); ("correlation_distance", Req TFloat);
   ("num_sinusoids", Req TInt); ("los_angle", Req TFloat); ("doppler_frequency", Req TFloat);
   ("los_doppler_frequency", Opt TFloat); ("antenna_correlation", Opt (TObj "AntennaCorrelation"));
   ("gain", Req TFloat); ("seed", Opt TInt)]
  [wr "model_type" "model_type" WObj; wr "correlation_distance" "correlation_distance" WFloat;
   wr "num_sinusoids" "num_sinusoids" WInt; wr "los_angle" "los_angle" WFloat;
   wr "doppler_frequency" "doppler_frequency" WFloat;
   wr_alt "los_doppler_frequency" "los_doppler_frequency" WFloat "doppler_frequency";
   wr_opt "antenna_correlation" "antenna_correlation" WObj; wr "gain" "gain" WFloat;
   wr_opt "seed" "seed" WInt]
  [rd "model_type" "model_type" (RObj "Cost259Type");
   rd "correlation_distance" "correlation_distance" RFloat;
   rd "num_sinusoids" "num_sinusoids" RInt; rd "los_angle" "los_angle" RFloat;
   rd "doppler_frequency" "doppler_frequency" RFloat;
   rd "los_doppler_frequency" "los_doppler_frequency" RFloat;
   rd_def "antenna_correlation" "antenna_correlation" (RObj "AntennaCorrelation") VNone;
   rd "gain" "gain" RFloat; rd_def "seed" "seed" RInt VNone]
  []
  None.

(** channel/fading/fading.py:431-466, 540-561, 563-582; channel/channel.py:426-442, 721-723, 725-727 [MultipathFadingRealization]. Deserialize forwards a seed (Channel._DeserializeParameters) which the constructor does not accept. *)
Definition k_MultipathFadingRealization : schema := mkSchema "MultipathFadingRealization" ["ChannelRealization"] true
  [("random_realization", Req (TObj "ConsistentRealization"));
   ("antenna_correlation_variable", Req (TObj "ConsistentUniform"));
   ("los_angles_variable", Req (TObj "ConsistentUniform"));
   ("path_angles_variable", Req (TObj "ConsistentUniform"));
   ("los_phases_variable", Req (TObj "ConsistentUniform"));
   ("path_phases_variable", Req (TObj "ConsistentUniform")); ("power_profile", Req (TArr Float64));
   ("delay_profile", Req (TArr Float64)); ("los_gains", Req (TArr Float64));
   ("nlos_gains", Req (TArr Float64)); ("los_doppler", Req TFloat); ("nlos_doppler", Req TFloat);
   ("antenna_correlation", Opt (TObj "AntennaCorrelation")); ("gain", Req TFloat)]
  [wr "random_realization" "random_realization" WObj;
   wr "antenna_correlation_variable" "antenna_correlation_variable" WObj;
   wr "los_angles_variable" "los_angles_variable" WObj;
   wr "path_angles_variable" "path_angles_variable" WObj;
   wr "los_phases_variable" "los_phases_variable" WObj;
   wr "path_phases_variable" "path_phases_variable" WObj;
   wr "power_profile" "power_profile" (WArr None); wr "delay_profile" "delay_profile" (WArr None);
   wr "los_gains" "los_gains" (WArr None); wr "nlos_gains" "nlos_gains" (WArr None);
   wr "los_doppler" "los_doppler" WFloat; wr "nlos_doppler" "nlos_doppler" WFloat;
   wr_opt "antenna_correlation" "antenna_correlation" WObj; wr "gain" "gain" WFloat]
  [rd "random_realization" "random_realization" (RObj "ConsistentRealization");
   rd "antenna_correlation_variable" "antenna_correlation_variable" (RObj "ConsistentUniform");
   rd "los_angles_variable" "los_angles_variable" (RObj "ConsistentUniform");
   rd "path_angles_variable" "path_angles_variable" (RObj "ConsistentUniform");
   rd "los_phases_variable" "los_phases_variable" (RObj "ConsistentUniform");
   rd "path_phases_variable" "path_phases_variable" (RObj "ConsistentUniform");
   rd "power_profile" "power_profile" (RArr Float64);
   rd "delay_profile" "delay_profile" (RArr Float64); rd "los_gains" "los_gains" (RArr Float64);
   rd "nlos_gains" "nlos_gains" (RArr Float64); rd "los_doppler" "los_doppler" RFloat;
   rd "nlos_doppler" "nlos_doppler" RFloat;
   rd_def "antenna_correlation" "antenna_correlation" (RObj "AntennaCorrelation") VNone;
   rd "gain" "gain" RFloat]
  []
  (Some (fun _ => Some TypeError)).

(** simulation/simulated_device.py:78-105, 149-151, 153-159 [TriggerRealization]. *)
Definition k_TriggerRealization : schema := mkSchema "TriggerRealization" ["TriggerRealization"] true
  [("num_offset_samples", Req TInt); ("sampling_rate", Req TFloat)]
  [wr "num_offset_samples" "num_offset_samples" WInt; wr "sampling_rate" "sampling_rate" WFloat]
  [rd "num_offset_samples" "num_offset_samples" RInt; rd "sampling_rate" "sampling_rate" RFloat]
  []
  None.

(** simulation/simulated_device.py:237-239, 241-244; simulation/simulated_device.py:167-172; core/random_node.py:74-87 [StaticTrigger]. *)
Definition k_StaticTrigger : schema := mkSchema "StaticTrigger" ["TriggerModel"] true
  []
  []
  []
  []
  None.

(** simulation/simulated_device.py:400-402, 404-407; simulation/simulated_device.py:167-172; core/random_node.py:74-87 [RandomTrigger]. *)
Definition k_RandomTrigger : schema := mkSchema "RandomTrigger" ["TriggerModel"] true
  []
  []
  []
  []
  None.

(** simulation/simulated_device.py:252-265, 292-294, 296-302; simulation/simulated_device.py:167-172; core/random_node.py:74-87 [SampleOffsetTrigger]. *)
Definition k_SampleOffsetTrigger : schema := mkSchema "SampleOffsetTrigger" ["TriggerModel"] true
  [("num_offset_samples", Req TInt)]
  [wr "num_offset_samples" "num_offset_samples" WInt]
  [rd "num_offset_samples" "num_offset_samples" RInt]
  []
  None.

(** simulation/simulated_device.py:314-327, 353-355, 357-363; simulation/simulated_device.py:167-172; core/random_node.py:74-87 [TimeOffsetTrigger]. *)
Definition k_TimeOffsetTrigger : schema := mkSchema "TimeOffsetTrigger" ["TriggerModel"] true
  [("offset", Req TFloat)]
  [wr "offset" "offset" WFloat]
  [rd "offset" "offset" RFloat]
  []
  None.

(** simulation/simulated_device.py:416-429, 470-473, 475-480; simulation/simulated_device.py:167-172; core/random_node.py:74-87 [NormalTrigger]. *)
Definition k_NormalTrigger : schema := mkSchema "NormalTrigger" ["TriggerModel"] true
  [("mean", Req TFloat); ("std", Req TFloat)]
  [wr "mean" "mean" WFloat; wr "std" "std" WFloat]
  [rd "mean" "mean" RFloat; rd "std" "std" RFloat]
  []
  None.

(** simulation/isolation/perfect.py:38-40, 42-45; simulation/isolation/isolation.py:27-34 [PerfectIsolation]. *)
Definition k_PerfectIsolation : schema := mkSchema "PerfectIsolation" ["Isolation"] true
  []
  []
  []
  []
  None.

(** simulation/isolation/selective.py:38-63, 144-146, 148-151; simulation/isolation/isolation.py:27-34 [SelectiveLeakage]. *)
Definition k_SelectiveLeakage : schema := mkSchema "SelectiveLeakage" ["Isolation"] true
  [("leakage_response", Req (TArr Complex128))]
  [wr "leakage_response" "leakage_response" (WArr None)]
  [rd "leakage_response" "leakage_response" (RArr Complex128)]
  []
  None.

(** simulation/isolation/specific.py:38-55, 128-131, 133-143; simulation/isolation/isolation.py:27-34 [SpecificIsolation]. *)
Definition k_SpecificIsolation : schema := mkSchema "SpecificIsolation" ["Isolation"] true
  [("isolation", Opt (TArr Float64))]
  [wr_opt "isolation" "isolation" (WArr None)]
  [rd_def "isolation" "isolation" (RArr Float64) VNone]
  []
  None.

(** simulation/coupling/perfect.py:39-41, 43-46 [PerfectCoupling]. *)
Definition k_PerfectCoupling : schema := mkSchema "PerfectCoupling" ["Coupling"] true
  []
  []
  []
  []
  None.

(** simulation/coupling/impedance.py:34-76, 218-229, 231-242 [ImpedanceCoupling]. The matrices are read as float64; complex ones are excluded by the type. *)
Definition k_ImpedanceCoupling : schema := mkSchema "ImpedanceCoupling" ["Coupling"] true
  [("transmit_correlation", Opt (TArr Float64)); ("receive_correlation", Opt (TArr Float64));
   ("transmit_impedance", Opt (TArr Float64)); ("receive_impedance", Opt (TArr Float64));
   ("matching_impedance", Opt (TArr Float64))]
  [wr_opt "transmit_correlation" "transmit_correlation" (WArr None);
   wr_opt "receive_correlation" "receive_correlation" (WArr None);
   wr_opt "transmit_impedance" "transmit_impedance" (WArr None);
   wr_opt "receive_impedance" "receive_impedance" (WArr None);
   wr_opt "matching_impedance" "matching_impedance" (WArr None)]
  [rd_def "transmit_correlation" "transmit_correlation" (RArr Float64) VNone;
   rd_def "receive_correlation" "receive_correlation" (RArr Float64) VNone;
   rd_def "transmit_impedance" "transmit_impedance" (RArr Float64) VNone;
   rd_def "receive_impedance" "receive_impedance" (RArr Float64) VNone;
   rd_def "matching_impedance" "matching_impedance" (RArr Float64) VNone]
  []
  None.

(** simulation/simulated_device.py:1104-1280, 2075-2088, 2119-2123, 2090-2117; core/device.py:1105-1188, 1642-1649, 1666-1670, 1651-1664; core/transformation.py:595-608, 786-787, 789-791; core/transformation.py:506-507; core/random_node.py:74-87; simulation/animation.py:311-321, 339-341, 343-346 [SimulatedDevice]. antennas and noise_level are read but never written; the trajectory is reduced to its pose.  The stream precoders are treated by C25. *)
Definition k_SimulatedDevice : schema := mkSchema "SimulatedDevice" ["Device"] true
  [("transmit_dsp", Req (TSeq "Transmitter")); ("receive_dsp", Req (TSeq "Receiver"));
   ("power", Req TFloat); ("pose", Req (TObj "Transformation")); ("rf", Req (TObj "RFChain"));
   ("isolation", Req (TObj "Isolation")); ("coupling", Req (TObj "Coupling"));
   ("trigger_model", Req (TObj "TriggerModel")); ("noise_model", Req (TObj "NoiseModel"));
   ("carrier_frequency", Req TFloat); ("bandwidth", Req TFloat); ("oversampling_factor", Req TInt);
   ("operator_separation", Req TBool); ("antennas", Req TAny);
   ("noise_level", Req (TObj "NoiseLevel")); ("velocity", Req TAny); ("seed", Opt TInt)]
  [wr "transmit_dsp" "transmit_dsp" WSeq; wr "receive_dsp" "receive_dsp" WSeq;
   wr "power" "power" WFloat; wr "pose" "pose" WObj; wr "rf" "rf" WObj;
   wr "isolation" "isolation" WObj; wr "coupling" "coupling" WObj;
   wr "trigger_model" "trigger_model" WObj; wr "noise_model" "noise_model" WObj;
   wr "carrier_frequency" "carrier_frequency" WFloat; wr "bandwidth" "bandwidth" WFloat;
   wr "oversampling_factor" "oversampling_factor" WInt;
   wr "operator_separation" "operator_separation" WInt]
  [rd "transmit_dsp" "transmit_dsp" (RSeq "Transmitter");
   rd "receive_dsp" "receive_dsp" (RSeq "Receiver"); rd "power" "power" RFloat;
   rd "pose" "pose" (RObj "Transformation"); rd "rf" "rf" (RObj "RFChain");
   rd "isolation" "isolation" (RObj "Isolation"); rd "coupling" "coupling" (RObj "Coupling");
   rd "trigger_model" "trigger_model" (RObj "TriggerModel");
   rd "noise_model" "noise_model" (RObj "NoiseModel");
   rd "carrier_frequency" "carrier_frequency" RFloat; rd "bandwidth" "bandwidth" RFloat;
   rd "oversampling_factor" "oversampling_factor" RInt;
   rd "operator_separation" "operator_separation" RBool;
   rd_def "antennas" "antennas" (RObj "AntennaArray") one_ideal_antenna;
   rd_def "noise_level" "noise_level" (RObj "NoiseLevel") (VObj "N0" [("power", VFloat f_zero)])]
  [("velocity", (VStr "zero velocity")); ("seed", VNone)]
  None.

(** simulation/drop.py:26-46, 54-56, 58-66; core/drop.py:30-51, 92-95, 97-104 [SimulatedDrop]. The realizations are read under a misspelt key. *)
Definition k_SimulatedDrop : schema := mkSchema "SimulatedDrop" [] true
  [("timestamp", Req TFloat); ("transmissions", Req (TSeq "DeviceTransmission"));
   ("receptions", Req (TSeq "DeviceReception"));
   ("channel_realizations", Req (TSeq "ChannelRealization"))]
  [wr "timestamp" "timestamp" WFloat; wr "transmissions" "transmissions" WSeq;
   wr "receptions" "receptions" WSeq; wr "channel_realizations" "channel_realizations" WSeq]
  [rd "timestamp" "timestamp" RFloat;
   rd "transmissions" "transmissions" (RSeq "DeviceTransmission");
   rd "receptions" "receptions" (RSeq "DeviceReception");
   rd "channel_realizations" "channel_realiations" (RSeq "ChannelRealization")]
  []
  None.

(** simulation/evaluators/interference.py:36-64, 93-95, 97-101; core/pymonte/scalar.py:258-284; core/pymonte/evaluation.py:380-382 [SI]. *)
Definition k_SI : schema := mkSchema "SI" [] true
  [("device", Req (TObj "SimulatedDevice")); ("confidence", Req TFloat); ("tolerance", Req TFloat);
   ("min_num_samples", Req TInt)]
  [wr "device" "device" WObj]
  [rd "device" "device" (RObj "SimulatedDevice")]
  [("confidence", (VFloat f_one)); ("tolerance", (VFloat f_zero)); ("min_num_samples", (VInt 1024))]
  None.

(** hardware_loop/physical_device.py:906-908, 910-915; hardware_loop/physical_device.py:696-721 [NoDelayCalibration]. *)
Definition k_NoDelayCalibration : schema := mkSchema "NoDelayCalibration" ["DelayCalibrationBase"] true
  []
  []
  []
  []
  None.

(** hardware_loop/calibration/delay.py:28-33, 128-130, 132-137; hardware_loop/physical_device.py:696-721 [DelayCalibration]. *)
Definition k_DelayCalibration : schema := mkSchema "DelayCalibration" ["DelayCalibrationBase"] true
  [("delay", Req TFloat)]
  [wr "delay" "delay" WFloat]
  [rd "delay" "delay" RFloat]
  []
  None.

(** hardware_loop/calibration/leakage.py:43-85, 553-557, 559-568; hardware_loop/physical_device.py:696-721 [SelectiveLeakageCalibration]. *)
Definition k_SelectiveLeakageCalibration : schema := mkSchema "SelectiveLeakageCalibration" ["LeakageCalibrationBase"] true
  [("leakage_response", Req (TArr Complex128)); ("sampling_rate", Req TFloat);
   ("delay", Req TFloat); ("transmit_ports", Opt (TArr Int64)); ("receive_ports", Opt (TArr Int64))]
  [wr "leakage_response" "leakage_response" (WArr None); wr "sampling_rate" "sampling_rate" WFloat;
   wr "delay" "delay" WFloat]
  [rd "leakage_response" "leakage_response" (RArr Complex128);
   rd "sampling_rate" "sampling_rate" RFloat; rd "delay" "delay" RFloat]
  [("transmit_ports", VNone); ("receive_ports", VNone)]
  None.

(** hardware_loop/calibration/antennas.py:38-58, 196-199, 201-207; hardware_loop/physical_device.py:696-721 [ScalarAntennaCalibration]. *)
Definition k_ScalarAntennaCalibration : schema := mkSchema "ScalarAntennaCalibration" ["AntennaCalibration"] true
  [("transmit_correction_weights", Req (TArr Complex128));
   ("receive_correction_weights", Req (TArr Complex128))]
  [wr "transmit_correction_weights" "transmit_correction_weights" (WArr None);
   wr "receive_correction_weights" "receive_correction_weights" (WArr None)]
  [rd "transmit_correction_weights" "transmit_correction_weights" (RArr Complex128);
   rd "receive_correction_weights" "receive_correction_weights" (RArr Complex128)]
  []
  None.

(** fec/aff3ct_wrappers.py:71-76, 78-85 [PolarSCCoding]. The bit error rate, a number below one, is written as an integer. *)
Definition k_PolarSCCoding : schema := mkSchema "PolarSCCoding" [] true
  [("data_block_size", Req TInt); ("code_block_size", Req TInt); ("ber", Req TRate)]
  [wr "data_block_size" "data_block_size" WInt; wr "code_block_size" "code_block_size" WInt;
   wr "ber" "ber" WInt]
  [rd "data_block_size" "data_block_size" RInt; rd "code_block_size" "code_block_size" RInt;
   rd "ber" "ber" RIntF]
  []
  None.

(** fec/aff3ct_wrappers.py:90-96, 98-106 [PolarSCLCoding]. The bit error rate, a number below one, is written as an integer. *)
Definition k_PolarSCLCoding : schema := mkSchema "PolarSCLCoding" [] true
  [("data_block_size", Req TInt); ("code_block_size", Req TInt); ("ber", Req TRate);
   ("num_paths", Req TInt)]
  [wr "data_block_size" "data_block_size" WInt; wr "code_block_size" "code_block_size" WInt;
   wr "ber" "ber" WInt; wr "num_paths" "num_paths" WInt]
  [rd "data_block_size" "data_block_size" RInt; rd "code_block_size" "code_block_size" RInt;
   rd "ber" "ber" RIntF; rd "num_paths" "num_paths" RInt]
  []
  None.

(** channel/fading/tdl.py:40-397, 411-422, 424-443; channel/fading/fading.py:606-754, 930-941, 969-972, 943-967; channel/channel.py:742-763, 975-979, 981-986; core/random_node.py:74-87 [TDL]. Types D and E refuse a line of sight Doppler frequency, which is always written. *)
Definition k_TDL : schema := mkSchema "TDL" ["Channel"] true
  [("model_type", Req (TObj "TDLType")); ("rms_delay", Req TFloat);
   ("correlation_distance", Req TFloat); ("num_sinusoids", Req TInt); ("los_angle", Req TFloat);
   ("doppler_frequency", Req TFloat); ("los_doppler_frequency", Opt TFloat);
   ("antenna_correlation", Opt (TObj "AntennaCorrelation")); ("gain", Req TFloat);
   ("seed", Opt TInt)]
  [wr "model_type" "model_type" WObj; wr "rms_delay" "rms_delay" WFloat;
   wr "correlation_distance" "correlation_distance" WFloat;
   wr "num_sinusoids" "num_sinusoids" WInt; wr "los_angle" "los_angle" WFloat;
   wr "doppler_frequency" "doppler_frequency" WFloat;
   wr_alt "los_doppler_frequency" "los_doppler_frequency" WFloat "doppler_frequency";
   wr_opt "antenna_correlation" "antenna_correlation" WObj; wr "gain" "gain" WFloat;
   wr_opt "seed" "seed" WInt]
  [rd "model_type" "model_type" (RObj "TDLType"); rd "rms_delay" "rms_delay" RFloat;
   rd "correlation_distance" "correlation_distance" RFloat;
   rd "num_sinusoids" "num_sinusoids" RInt; rd "los_angle" "los_angle" RFloat;
   rd "doppler_frequency" "doppler_frequency" RFloat;
   rd "los_doppler_frequency" "los_doppler_frequency" RFloat;
   rd_def "antenna_correlation" "antenna_correlation" (RObj "AntennaCorrelation") VNone;
   rd "gain" "gain" RFloat; rd_def "seed" "seed" RInt VNone]
  []
  (Some tdl_check).

(** modem/evaluators.py:54-91, 146-150, 152-159; core/pymonte/scalar.py:258-284; core/pymonte/evaluation.py:380-382 [BitErrorEvaluator]. The private attribute read while saving is never set. *)
Definition k_BitErrorEvaluator : schema := mkSchema "BitErrorEvaluator" [] true
  [("transmitting_modem", Req (TObj "TransmittingModem"));
   ("receiving_modem", Req (TObj "ReceivingModem"))]
  [wr "transmitting_modem" "transmitting_modem" WObj; wr "receiving_modem" "receiving_modem" WObj;
   wr "_CommunicationEvaluator__plot_surface" "plot_surface" WInt]
  [rd "transmitting_modem" "transmitting_modem" (RObj "TransmittingModem");
   rd "receiving_modem" "receiving_modem" (RObj "ReceivingModem")]
  []
  None.

(** core/device.py:201-208, 265-266, 268-271 [DeviceOutput]. Loaded without a type check; the signal type is checked here. *)
Definition k_DeviceOutput : schema := mkSchema "DeviceOutput" [] true
  [("mixed_signal", Req (TObj "Signal"))]
  [wr "mixed_signal" "mixed_signal" WObj]
  [rd "mixed_signal" "mixed_signal" (RObj "Signal")]
  []
  None.

(** core/device.py:283-295, 328-333, 335-347; core/device.py:201-208, 265-266, 268-271 [DeviceTransmission]. *)
Definition k_DeviceTransmission : schema := mkSchema "DeviceTransmission" [] true
  [("mixed_signal", Req (TObj "Signal")); ("dsp_transmissions", Req (TSeq "Transmission"))]
  [wr "mixed_signal" "mixed_signal" WObj; wr "dsp_transmissions" "dsp_transmissions" WSeq]
  [rd "mixed_signal" "mixed_signal" (RObj "Signal");
   rd "dsp_transmissions" "dsp_transmissions" (RSeq "Transmission")]
  []
  None.

(** core/device.py:458-484, 525-528, 530-535; core/device.py:399-421, 436-438, 440-446; core/device.py:355-365, 385-386, 388-391 [DeviceReception]. *)
Definition k_DeviceReception : schema := mkSchema "DeviceReception" [] true
  [("impinging_signals", Req (TSeq "Signal")); ("operator_inputs", Req (TSeq "Signal"));
   ("dsp_receptions", Req (TSeq "Reception"))]
  [wr "impinging_signals" "impinging_signals" WSeq; wr "operator_inputs" "operator_inputs" WSeq;
   wr "dsp_receptions" "dsp_receptions" WSeq]
  [rd "impinging_signals" "impinging_signals" (RSeq "Signal");
   rd "operator_inputs" "operator_inputs" (RSeq "Signal");
   rd "dsp_receptions" "dsp_receptions" (RSeq "Reception")]
  []
  None.

(** modem/waveform_single_carrier.py:70-127, 449-456, 479-482, 458-477; modem/waveform.py:768-795; modem/waveform.py:263-301, 612-617, 619-640 [RectangularWaveform]. *)
Definition k_RectangularWaveform : schema := mkSchema "RectangularWaveform" ["CommunicationWaveform"; "FilteredSingleCarrierWaveform"] true
  [("modulation_order", Req TInt); ("synchronization", Req (TObj "Synchronization"));
   ("channel_estimation", Req (TObj "ChannelEstimation"));
   ("channel_equalization", Req (TObj "ChannelEqualization")); ("num_preamble_symbols", Req TInt);
   ("num_data_symbols", Req TInt); ("num_postamble_symbols", Req TInt);
   ("guard_interval", Req TFloat); ("pilot_rate", Req TInt); ("pilot_symbol_sequence", Req TAny);
   ("repeat_pilot_symbol_sequence", Req TBool)]
  [wr "modulation_order" "modulation_order" WInt; wr "synchronization" "synchronization" WObj;
   wr "channel_estimation" "channel_estimation" WObj;
   wr "channel_equalization" "channel_equalization" WObj;
   wr "num_preamble_symbols" "num_preamble_symbols" WInt;
   wr "num_data_symbols" "num_data_symbols" WInt;
   wr "num_postamble_symbols" "num_postamble_symbols" WInt;
   wr "guard_interval" "guard_interval" WFloat; wr "pilot_rate" "pilot_rate" WInt]
  [rd "modulation_order" "modulation_order" RInt;
   rd "synchronization" "synchronization" (RObj "Synchronization");
   rd "channel_estimation" "channel_estimation" (RObj "ChannelEstimation");
   rd "channel_equalization" "channel_equalization" (RObj "ChannelEqualization");
   rd "num_preamble_symbols" "num_preamble_symbols" RInt;
   rd "num_data_symbols" "num_data_symbols" RInt;
   rd "num_postamble_symbols" "num_postamble_symbols" RInt;
   rd "guard_interval" "guard_interval" RFloat; rd "pilot_rate" "pilot_rate" RInt]
  [("pilot_symbol_sequence", (VObj "MappedPilotSymbolSequence" []));
   ("repeat_pilot_symbol_sequence", (VInt 1))]
  None.

Definition table : list schema :=
  [k_LDPCCoding; k_BCHCoding; k_ReedSolomonCoding; k_RSCCoding;
   k_TurboCoding; k_BlockInterleaver; k_CyclicRedundancyCheck; k_RepetitionEncoder;
   k_Scrambler3GPP; k_Scrambler80211a; k_EncoderManager; k_PskQamMapping;
   k_RandomBitsSource; k_StreamBitsSource; k_Synchronization; k_ChannelEstimation;
   k_ChannelEqualization; k_CorrelationSynchronization; k_UniformPilotSymbolSequence; k_CustomPilotSymbolSequence;
   k_RootRaisedCosineWaveform; k_RaisedCosineWaveform; k_FMCWWaveform; k_GridElement;
   k_ElementType; k_PrefixType; k_MixerType; k_GainControlType;
   k_QuantizerType; k_TDLType; k_Cost259Type; k_GridResource;
   k_SymbolSection; k_GuardSection; k_PilotSection; k_OFDMWaveform;
   k_OCDMWaveform; k_OTFSWaveform; k_NRSlot; k_Symbols;
   k_StatedSymbols; k_DFT; k_MaximumRatioCombining; k_SingleCarrier;
   k_Alamouti; k_Ganesan; k_FrameGeneratorStub; k_CommunicationTransmissionFrame;
   k_CommunicationTransmission; k_CommunicationReceptionFrame; k_CommunicationReception; k_IdealAntenna;
   k_PatchAntenna; k_Dipole; k_LinearAntenna; k_UniformArray;
   k_CustomAntennaArray; k_ChannelStateInformation; k_Transformation; k_RandomRealization;
   k_SignalBlock; k_DenseSignal; k_SparseSignal; k_RFSignal;
   k_DeviceInput; k_ProcessedDeviceInput; k_SilentTransmitter; k_SignalTransmitter;
   k_SignalReceiver; k_RadarCube; k_PointDetection; k_RadarPointCloud;
   k_ThresholdDetector; k_MaxDetector; k_CFARDetector; k_FMCW;
   k_RadarReception; k_Radar; k_MatchedFilterJcas; k_OFDMRadar;
   k_SphericalFocus; k_CoordinateFocus; k_CaponBeamformer; k_ConventionalBeamformer;
   k_NullSteeringBeamformer; k_TransmittingModem; k_ReceivingModem; k_DuplexModem;
   k_SimplexLink; k_AWGN; k_AWGNRealization; k_ThermalNoise;
   k_N0; k_SNR; k_NoPhaseNoise; k_OscillatorPhaseNoise;
   k_Mixer; k_IdealMixer; k_PowerAmplifier; k_ClippingPowerAmplifier;
   k_RappPowerAmplifier; k_SalehPowerAmplifier; k_CustomPowerAmplifier; k_MemoryPolynomialPowerAmplifier;
   k_MemoryCTPolynomialPowerAmplifier; k_RampGenerator; k_Gain; k_AutomaticGainControl;
   k_ADC; k_DAC; k_RFBlockReference; k_RFChain;
   k_X410; k_IdealChannelRealization; k_IdealChannel; k_SpatialDelayChannelRealization;
   k_RandomDelayChannelRealization; k_SpatialDelayChannel; k_RandomDelayChannel; k_ConsistentUniform;
   k_DualConsistentRealization; k_StaticConsistentRealization; k_FixedCrossSection; k_LinearTrajectory;
   k_StaticTrajectory; k_BITrajectoryB; k_VirtualRadarTarget; k_MultiTargetRadarChannelRealization;
   k_MultiTargetRadarChannel; k_CustomAntennaCorrelation; k_MultipathFadingChannel; k_Exponential;
   k_Cost259; k_MultipathFadingRealization; k_TriggerRealization; k_StaticTrigger;
   k_RandomTrigger; k_SampleOffsetTrigger; k_TimeOffsetTrigger; k_NormalTrigger;
   k_PerfectIsolation; k_SelectiveLeakage; k_SpecificIsolation; k_PerfectCoupling;
   k_ImpedanceCoupling; k_SimulatedDevice; k_SimulatedDrop; k_SI;
   k_NoDelayCalibration; k_DelayCalibration; k_SelectiveLeakageCalibration; k_ScalarAntennaCalibration;
   k_PolarSCCoding; k_PolarSCLCoding; k_TDL; k_BitErrorEvaluator;
   k_DeviceOutput; k_DeviceTransmission; k_DeviceReception; k_RectangularWaveform].
