(** Property theorems for hermespy/fec (C01-C07, C45, C46, C50). *)
From Coq Require Import List Arith Lia Bool Permutation Sorted.
From Verif Require Import Base BaseLemmas Fec_Model Fec_Spec Fec_Proofs FecCodes_Proofs FecPrg_Proofs.
Import ListNotations.

(** Registered encoders used in the examples: a threefold repetition of blocks
    of two bits and an interleaver over blocks of six bits. *)
Definition unwrap (r : result bits) : bits := match r with Ok b => b | Raise _ => [] end.
Definition rep_member (K reps : nat) : member :=
  mkMember true K (reps * K) (fun _ b => rep_encode reps b) (fun _ c => unwrap (rep_decode reps K c)) [] [].
Definition il_member (K M : nat) : member :=
  mkMember true K K (fun _ b => unwrap (il_encode M b)) (fun _ c => unwrap (il_decode M c)) [] [].

Lemma rep_member_ok K reps : rep_new K reps = Ok (K, reps) ->
  well_sized (rep_member K reps) /\ self_inverse (rep_member K reps).
Proof.
  unfold rep_new. destruct (Nat.ltb_spec K 1); [discriminate|]. destruct (Nat.ltb_spec reps 1); [discriminate|].
  destruct (Nat.eqb_spec (reps mod 2) 0); [discriminate|]. intros _.
  assert (Hodd : reps mod 2 = 1) by (pose proof (Nat.mod_upper_bound reps 2); lia).
  assert (D : forall b, length b = K -> rep_decode reps K (rep_encode reps b) = Ok b).
  { intros b <-. now apply rep_roundtrip. }
  split.
  - repeat split; simpl; [lia|nia| |].
    + intros _ b Hb. rewrite rep_encode_length. lia.
    + intros _ c Hc.
      destruct (rep_decode_bit reps K (repeat false K) c Hodd Hc (repeat_length _ _)) as (out & E & L & _).
      unfold unwrap. now rewrite E.
  - apply run_inverts. simpl. generalize (@nil bits) at 1 as h1. generalize (@nil bits) as h2.
    intros h2 h1 bs. revert h1 h2.
    induction bs as [|b bs IH]; intros h1 h2 Hbs; simpl; auto.
    inv Hbs. unfold unwrap at 1. rewrite (D b) by auto. f_equal. apply IH; auto.
Qed.

Lemma il_member_ok K M : 1 <= K -> il_new K M = Ok (K, M) ->
  well_sized (il_member K M) /\ self_inverse (il_member K M).
Proof.
  intros HK H. split.
  - repeat split; simpl; [lia|lia| |].
    + intros _ b Hb. destruct (il_encode_ok K M b H Hb) as (c & E & L & _). unfold unwrap. now rewrite E.
    + intros _ c Hc. destruct (il_decode_encode K M c H Hc) as (b & E & L & _). unfold unwrap. now rewrite E.
  - apply run_inverts. simpl. generalize (@nil bits) at 1 as h1. generalize (@nil bits) as h2.
    intros h2 h1 bs. revert h1 h2.
    induction bs as [|b bs IH]; intros h1 h2 Hbs; simpl; auto.
    inv Hbs. destruct (il_encode_ok _ M b H eq_refl) as (c & E & L & _ & E2 & _).
    unfold unwrap at 1 2. rewrite E, E2. f_equal. apply IH; auto.
Qed.

(** ** C01 *)

(** Whatever the block sizes, enabled pattern, padding bits and requested code
    length: if decoding returns bits at all, they are the encoded data. *)
Theorem C01_decode_never_returns_wrong_bits :
  forall (mg : manager) (data : bits) (n : option nat) (mg1 mg2 : manager) (code out : bits),
    (forall m, In m (mg_encoders mg) ->
       sized (m_K m) (m_L m) (m_enc m) (m_dec m) /\
       inverts (m_K m) (m_enc m) (m_dec m) (m_ehist m) (m_dhist m)) ->
    encode mg data n = Ok (mg1, code) ->
    decode mg1 code (Some (length data)) = Ok (mg2, out) ->
    out = data.
Proof.
  intros mg data n mg1 mg2 code out H He Hd.
  eapply encode_decode_safe; eauto; apply Forall_forall; intros m Hm; apply (H m Hm).
Qed.
Print Assumptions C01_decode_never_returns_wrong_bits.

(** If block sizes divide along the chain, rates are at most one and truncation
    is allowed, decoding does return. *)
Theorem C01_encode_decode_roundtrip :
  forall (mg : manager) (data : bits) (n : option nat) (mg1 : manager) (code : bits),
    (forall m, In m (mg_encoders mg) ->
       sized (m_K m) (m_L m) (m_enc m) (m_dec m) /\
       inverts (m_K m) (m_enc m) (m_dec m) (m_ehist m) (m_dhist m) /\
       m_K m <= m_L m) ->
    chain_divides None (mg_encoders mg) ->
    mg_trunc mg = true ->
    encode mg data n = Ok (mg1, code) ->
    exists mg2, decode mg1 code (Some (length data)) = Ok (mg2, data).
Proof.
  intros mg data n mg1 code H Hc Ht He.
  eapply encode_decode_live; eauto; apply Forall_forall; intros m Hm; apply (H m Hm).
Qed.
Print Assumptions C01_encode_decode_roundtrip.

(** A whole history of frames through one (possibly stateful) encoder stack. *)
Theorem C01_session_roundtrip :
  forall (l : list member) (pad : bool) (rng : nat -> bool) (pos : nat) (frames : list bits),
    (forall m, In m l ->
       sized (m_K m) (m_L m) (m_enc m) (m_dec m) /\
       inverts (m_K m) (m_enc m) (m_dec m) (m_ehist m) (m_dhist m)) ->
    (forall d, In d frames -> fits l (length d)) ->
    session l pad rng pos frames = Ok frames.
Proof.
  intros l pad rng pos frames H Hf.
  apply session_exact; apply Forall_forall; auto; intros m Hm; apply (H m Hm).
Qed.
Print Assumptions C01_session_roundtrip.

(** The stack used in practice: repetition (2 -> 6) followed by interleaving (6 -> 6). *)
Definition ex_mg : manager := mkManager [rep_member 2 3; il_member 6 3] true true (fun n => Nat.odd n) 0.

Example C01_hypotheses_met :
  (forall m, In m (mg_encoders ex_mg) ->
     sized (m_K m) (m_L m) (m_enc m) (m_dec m) /\
     inverts (m_K m) (m_enc m) (m_dec m) (m_ehist m) (m_dhist m) /\ m_K m <= m_L m) /\
  chain_divides None (mg_encoders ex_mg) /\
  fits (mg_encoders ex_mg) 4 /\
  (exists mg1, encode ex_mg [true; false; true] (Some 15) =
     Ok (mg1, [true; true; true; false; false; false; true; true; true; false; false; false; true; false; true]) /\
   exists mg2, decode mg1 [true; true; true; false; false; false; true; true; true; false; false; false; true; false; true] (Some 3)
     = Ok (mg2, [true; false; true])).
Proof.
  split.
  { intros m [<-|[<-|[]]].
    - destruct (rep_member_ok 2 3 eq_refl) as (A & B). repeat split; try apply A; try apply B; simpl; lia.
    - destruct (il_member_ok 6 3 ltac:(lia) eq_refl) as (A & B). repeat split; try apply A; try apply B; simpl; lia. }
  split.
  { simpl. repeat split. exists 1. reflexivity. }
  split.
  { simpl. exists 2. split; auto. exists 2. auto. }
  eexists. split; [vm_compute; reflexivity|]. eexists. vm_compute. reflexivity.
Qed.

(** Without the divisibility condition the full property is false: three
    followed by four, twelve bits encode to twelve bits which are refused. *)
Theorem C01_roundtrip_refuted :
  exists (mg mg1 : manager) (data code : bits),
    (forall m, In m (mg_encoders mg) ->
       sized (m_K m) (m_L m) (m_enc m) (m_dec m) /\
       inverts (m_K m) (m_enc m) (m_dec m) (m_ehist m) (m_dhist m)) /\
    mg_trunc mg = true /\
    encode mg data None = Ok (mg1, code) /\
    decode mg1 code (Some (length data)) = Raise RuntimeError.
Proof.
  exists (mkManager [il_member 3 3; il_member 4 2] true true (fun _ => false) 0).
  eexists. exists (repeat true 12). eexists. split.
  { intros m [<-|[<-|[]]]; [destruct (il_member_ok 3 3 ltac:(lia) eq_refl)|destruct (il_member_ok 4 2 ltac:(lia) eq_refl)]; auto. }
  split; [reflexivity|]. split; vm_compute; reflexivity.
Qed.
Print Assumptions C01_roundtrip_refuted.

(** ** C02 *)

(** A positive requested length is met exactly, the code is the code obtained
    without a requested length followed by less than a block of padding. *)
Theorem C02_requested_length_is_met :
  forall (mg mg' : manager) (data code : bits) (n : nat),
    1 <= n -> encode mg data (Some n) = Ok (mg', code) ->
    length code = n /\
    exists mg0 c0 padding, encode mg data None = Ok (mg0, c0) /\ code = c0 ++ padding /\
      (padding = [] \/ length padding < code_block_size mg).
Proof.
  intros mg mg' data code n Hn H.
  destruct (encode_inv _ _ _ _ _ H) as (l' & pos & c0 & padding & Hc & -> & _ & _ & _ & Hp & Hl).
  destruct n; [lia|]. split; [now apply Hl|].
  unfold encode at 1. rewrite Hc. cbn [bind]. eauto 10.
Qed.
Print Assumptions C02_requested_length_is_met.

(** A code word longer than requested is refused, never cut. *)
Theorem C02_no_truncation :
  forall (mg mg0 : manager) (data c0 : bits) (n : nat),
    1 <= n -> encode mg data None = Ok (mg0, c0) -> n < length c0 ->
    encode mg data (Some n) = Raise RuntimeError.
Proof.
  intros mg mg0 data c0 n Hn H Hlt. unfold encode in *.
  destruct (encode_chain _ _ _ _ _) as [((l', pos), c)|e]; cbn [bind] in *; [|discriminate].
  injection H as _ <-. destruct n; [lia|].
  destruct (Nat.ltb_spec (S n) (length c)); [reflexivity|lia].
Qed.
Print Assumptions C02_no_truncation.

Example C02_hypotheses_met :
  (exists mg' code, encode ex_mg [true; false; true] (Some 15) = Ok (mg', code)) /\
  (exists mg0 c0, encode ex_mg [true; false; true] None = Ok (mg0, c0) /\ 7 < length c0).
Proof. split; eexists; eexists; [vm_compute; reflexivity|split; [vm_compute; reflexivity|simpl; lia]]. Qed.

(** A requested length of zero is treated as no request at all. *)
Theorem C02_zero_length_refuted :
  exists (mg mg' : manager) (data code : bits), encode mg data (Some 0) = Ok (mg', code) /\ length code <> 0.
Proof. exists ex_mg. eexists. exists [true]. eexists. split; [vm_compute; reflexivity|simpl; lia]. Qed.
Print Assumptions C02_zero_length_refuted.

(** ** C03 *)

(** Bit [j] is decoded correctly iff at most (r-1)/2 of its repetitions are flipped. *)
Theorem C03_repetition_corrects_exactly_minorities :
  forall (K reps : nat) (sent recv : bits),
    rep_new K reps = Ok (K, reps) -> length sent = K -> length recv = reps * K ->
    exists out, rep_decode reps K recv = Ok out /\ length out = K /\
      forall j, j < K ->
        (nth j out false = nth j sent false <-> errors_at reps K sent recv j <= (reps - 1) / 2).
Proof.
  intros K reps sent recv H Hs Hr. apply rep_decode_bit; auto.
  unfold rep_new in H. destruct (K <? 1), (reps <? 1); try discriminate.
  destruct (Nat.eqb_spec (reps mod 2) 0); [discriminate|].
  pose proof (Nat.mod_upper_bound reps 2). lia.
Qed.
Print Assumptions C03_repetition_corrects_exactly_minorities.

(** An encoded word carries no errors, hence decoding inverts encoding. *)
Theorem C03_repetition_roundtrip :
  forall (reps : nat) (b : bits), rep_new (length b) reps = Ok (length b, reps) ->
    (forall j, j < length b -> errors_at reps (length b) b (rep_encode reps b) j = 0) /\
    length (rep_encode reps b) = reps * length b /\
    rep_decode reps (length b) (rep_encode reps b) = Ok b.
Proof.
  intros reps b H. split; [intros; now apply rep_encode_no_errors|].
  split; [apply rep_encode_length|]. apply rep_roundtrip.
  unfold rep_new in H. destruct (length b <? 1), (reps <? 1); try discriminate.
  destruct (Nat.eqb_spec (reps mod 2) 0); [discriminate|].
  pose proof (Nat.mod_upper_bound reps 2). lia.
Qed.
Print Assumptions C03_repetition_roundtrip.

Example C03_hypotheses_met :
  rep_new 2 3 = Ok (2, 3) /\
  errors_at 3 2 [true; false] [true; true; false; false; true; false] 0 = 1 /\
  errors_at 3 2 [true; false] [true; true; false; true; true; false] 1 = 2 /\
  rep_decode 3 2 [true; true; false; false; true; false] = Ok [true; false] /\
  rep_decode 3 2 [true; true; false; true; true; false] = Ok [true; true].
Proof. repeat split. Qed.

(** ** C04 *)

Theorem C04_interleaver_is_a_lossless_permutation :
  forall (K M : nat) (b : bits), il_new K M = Ok (K, M) -> length b = K ->
  exists c, il_encode M b = Ok c /\ length c = K /\ Permutation c b /\ il_decode M c = Ok b /\
    (forall i j, i < K / M -> j < M -> nth (i * M + j) c false = nth (j * (K / M) + i) b false).
Proof. exact il_encode_ok. Qed.
Print Assumptions C04_interleaver_is_a_lossless_permutation.

Theorem C04_deinterleaver_is_injective :
  forall (K M : nat) (c : bits), il_new K M = Ok (K, M) -> length c = K ->
  exists b, il_decode M c = Ok b /\ length b = K /\ il_encode M b = Ok c.
Proof. exact il_decode_encode. Qed.
Print Assumptions C04_deinterleaver_is_injective.

(** The class documentation promises y_k = x_{(k * M) mod K}; the code computes another permutation. *)
Theorem C04_documented_formula_refuted :
  exists (K M : nat) (b c : bits), il_new K M = Ok (K, M) /\ length b = K /\ il_encode M b = Ok c /\
    exists k, k < K /\ nth k c false <> nth ((k * M) mod K) b false.
Proof.
  exists 6, 2, [true; false; false; false; false; false]. eexists. repeat split. exists 3. split; [lia|]. vm_compute. discriminate.
Qed.
Print Assumptions C04_documented_formula_refuted.

Example C04_hypotheses_met :
  il_new 6 2 = Ok (6, 2) /\
  il_encode 2 [true; true; true; false; false; false] = Ok [true; false; true; false; true; false].
Proof. repeat split. Qed.

(** ** C05 *)

Theorem C05_crc_roundtrip :
  forall (n : nat) (data check : bits), 1 <= n -> length check = n ->
    crc_decode n (crc_encode check data) = data /\
    length (crc_encode check data) = length data + n.
Proof.
  intros n data check Hn Hc. unfold crc_decode, crc_encode. rewrite app_length.
  destruct (Nat.eqb_spec n 0); [lia|]. split; [|lia].
  replace (length data + length check - n) with (length data) by lia.
  rewrite firstn_app, Nat.sub_diag, firstn_all. simpl. apply app_nil_r.
Qed.
Print Assumptions C05_crc_roundtrip.

(** The setter accepts zero check bits; then every block is lost. *)
Theorem C05_zero_check_bits_refuted :
  forall data : bits, crc_decode 0 (crc_encode [] data) = [].
Proof. reflexivity. Qed.
Print Assumptions C05_zero_check_bits_refuted.

Example C05_hypotheses_met : crc_decode 2 (crc_encode [true; false] [true; true; false]) = [true; true; false].
Proof. reflexivity. Qed.

(** ** C06 *)

(** Any block sizes on either side: the receiver's output stream is the
    transmitter's input stream, and both generators stay synchronised. *)
Theorem C06_3gpp_scrambling_is_transparent :
  forall (seed : bits) (tx rx : scr3gpp) (data code : list bits),
    scr3gpp_new seed = Ok tx -> scr3gpp_new seed = Ok rx ->
    concat code = concat (snd (feed scr3gpp_encode tx data)) ->
    concat (snd (feed scr3gpp_decode rx code)) = concat data.
Proof.
  intros seed tx rx data code Ht Hr Hc. rewrite Ht in Hr. injection Hr as <-.
  apply (scr3gpp_transparent tx tx); auto.
  unfold scr3gpp_new in Ht. apply bind_ok in Ht. destruct Ht as (s & _ & Ht). now injection Ht as <-.
Qed.
Print Assumptions C06_3gpp_scrambling_is_transparent.

(** The same object: any number of encoded blocks, then decoded blocks. *)
Theorem C06_3gpp_same_object :
  forall (s : scr3gpp) (data : list bits), tx_rng s = rx_rng s ->
    let (s1, code) := feed scr3gpp_encode s data in
    let (s2, out) := feed scr3gpp_decode s1 code in
    concat out = concat data /\ tx_rng s2 = rx_rng s2.
Proof.
  intros s data H. pose proof (feed_encode s data) as (_ & R).
  destruct (feed scr3gpp_encode s data) as (s1, code) eqn:E1. cbn [fst snd] in R.
  pose proof (scr3gpp_transparent s s1 data code) as T. rewrite E1 in T. cbn [fst snd] in T.
  pose proof (feed_decode s1 code) as (_ & R2).
  destruct (feed scr3gpp_decode s1 code) as (s2, out). cbn [fst snd] in *.
  destruct T as (T1 & T2); [congruence|reflexivity|]. split; congruence.
Qed.
Print Assumptions C06_3gpp_same_object.

Example C06_hypotheses_met :
  exists tx, scr3gpp_new [false; true; false; true; true; false; true] = Ok tx /\
    snd (feed scr3gpp_encode tx [[true; true; true]; [false; true]]) <> [[true; true; true]; [false; true]].
Proof. eexists. split; [vm_compute; reflexivity|]. vm_compute. discriminate. Qed.

(** ** C07 *)

Theorem C07_80211a_equal_registers_are_transparent :
  forall (q : bits) (data code : list bits),
    concat code = concat (snd (feed scr80211a_encode q data)) ->
    concat (snd (feed scr80211a_decode q code)) = concat data /\
    fst (feed scr80211a_encode q data) = fst (feed scr80211a_decode q code).
Proof. exact scr80211a_transparent. Qed.
Print Assumptions C07_80211a_equal_registers_are_transparent.

(** One object does not decode its own code words. *)
Theorem C07_80211a_same_object_refuted :
  exists (q data : bits), length q = 7 /\
    let (q1, code) := scr80211a_encode q data in snd (scr80211a_decode q1 code) <> data.
Proof.
  exists [false; true; false; true; true; false; true], [true; false; true; false]. split; [reflexivity|].
  vm_compute. discriminate.
Qed.
Print Assumptions C07_80211a_same_object_refuted.

Example C07_hypotheses_met :
  snd (scr80211a_encode [false; true; false; true; true; false; true] [false; false; false; false]) = [false; false; false; true]
  \/ snd (scr80211a_encode [false; true; false; true; true; false; true] [false; false; false; false]) <> [false; false; false; false].
Proof. right. vm_compute. discriminate. Qed.

(** ** C45: encoders run in order of increasing block size *)

Theorem C45_execution_order_is_a_stable_sort :
  forall (mg : manager) (m : member),
    let r := mg_encoders (add_encoder mg m) in
    Sorted (fun a b => m_K a <= m_K b) r /\
    Permutation r (mg_encoders mg ++ [m]) /\
    forall k, filter (fun x => m_K x =? k) r = filter (fun x => m_K x =? k) (mg_encoders mg ++ [m]).
Proof. intros mg m. exact (execution_order_spec (mg_encoders mg ++ [m])). Qed.
Print Assumptions C45_execution_order_is_a_stable_sort.

Example C45_case : map m_K (mg_encoders (add_encoder ex_mg (il_member 4 2))) = [2; 4; 6].
Proof. reflexivity. Qed.

(** ** C46: the advertised number of data bits fits the code length *)

Theorem C46_required_data_bits_fill_the_code :
  forall (mg : manager) (n : nat),
    (forall m, In m (mg_encoders mg) -> sized (m_K m) (m_L m) (m_enc m) (m_dec m)) ->
    chain_nested None (mg_encoders mg) ->
    1 <= n -> (mg_pad mg = true \/ n mod code_block_size mg = 0) ->
    exists k, required_num_data_bits mg n = Ok k /\
      forall data, length data = k ->
        exists mg' code, encode mg data (Some n) = Ok (mg', code) /\ length code = n.
Proof.
  intros mg n H. apply required_bits_encode. apply Forall_forall. exact H.
Qed.
Print Assumptions C46_required_data_bits_fill_the_code.

Example C46_hypotheses_met :
  chain_nested None (mg_encoders ex_mg) /\ required_num_data_bits ex_mg 20 = Ok 6.
Proof. split; [|reflexivity]. simpl. repeat split; exists 1; reflexivity. Qed.

(** With sizes that only divide along the chain (3 | 3, 4 | 12) the tracked
    number of bits is wrong for the third encoder: 8 data bits are announced for
    12 code bits, but they do not fit. *)
Definition pad_member (K L : nat) : member :=
  mkMember true K L (fun _ b => b ++ repeat false (L - K)) (fun _ c => firstn K c) [] [].

Lemma pad_member_ok K L : 1 <= K <= L -> well_sized (pad_member K L).
Proof.
  intros H. repeat split; simpl; try lia.
  - intros _ b Hb. rewrite app_length, repeat_length. lia.
  - intros _ c Hc. rewrite firstn_length. lia.
Qed.

Theorem C46_required_bits_refuted :
  exists (mg : manager) (n k : nat) (data : bits),
    (forall m, In m (mg_encoders mg) -> sized (m_K m) (m_L m) (m_enc m) (m_dec m)) /\
    chain_divides None (mg_encoders mg) /\ mg_pad mg = true /\
    required_num_data_bits mg n = Ok k /\ length data = k /\
    encode mg data (Some n) = Raise RuntimeError.
Proof.
  exists (mkManager [pad_member 2 3; pad_member 3 4; pad_member 12 12] true true (fun _ => false) 0).
  exists 12, 8, (repeat true 8).
  split. { intros m [<-|[<-|[<-|[]]]]; apply pad_member_ok; lia. }
  split. { simpl. repeat split; [exists 1|exists 3]; reflexivity. }
  repeat split.
Qed.
Print Assumptions C46_required_bits_refuted.

(** C50: for every seed of 4 up to 1600 bits the generator puts out
    c(n) = x1(n + 1600) + x2(n + 1600) for the two streams of [prg_streams],
    however many bits are requested ... *)
Theorem C50_generator_follows_its_recurrences :
  forall (seed : bits) (o : prg_obj), prg_obj_new seed = Ok o -> length seed <= 1600 ->
    exists x1 x2 : nat -> bool, prg_streams seed x1 x2 /\
      forall k : nat, snd (prg_obj_generate o k) = map (fun n => xorb (x1 (1600 + n)) (x2 (1600 + n))) (seq 0 k).
Proof.
  intros seed o H Hl. unfold prg_obj_new in H. inv_bind H. injection H as <-.
  destruct (prg_init_streams seed v E Hl) as (x1 & x2 & Hs & Hn).
  exists x1, x2; split; auto. intros k. unfold prg_obj_generate; cbn [po_state po_initial].
  assert (Hk : length (snd (prg_sequence k v)) = k) by apply length_prg_sequence'.
  specialize (Hn k). destruct (prg_sequence k v) as [s b]; cbn [snd] in *.
  apply nth_ext with (d := false) (d' := (fun n => xorb (x1 (1600 + n)) (x2 (1600 + n))) 0).
  - now rewrite map_length, seq_length.
  - intros n Hlt. rewrite (map_nth (fun n => xorb (x1 (1600 + n)) (x2 (1600 + n))) (seq 0 k) 0 n).
    rewrite seq_nth by lia. cbn [plus]. apply Hn; lia.
Qed.
Print Assumptions C50_generator_follows_its_recurrences.

(** ... and a reset after any history of requests replays the sequence from its start ... *)
Theorem C50_reset_replays :
  forall (seed : bits) (o : prg_obj) (requests : list nat) (k : nat), prg_obj_new seed = Ok o ->
    let o' := fold_left (fun s n => fst (prg_obj_generate s n)) requests o in
    snd (prg_obj_generate (prg_obj_reset o') k) = snd (prg_obj_generate o k).
Proof.
  intros seed o requests k H o'. unfold prg_obj_new in H. inv_bind H.
  assert (Ho : o = mkPrgObj v v) by congruence.
  assert (Hi : po_initial o' = v).
  { subst o'. assert (G : po_initial o = v) by (now subst o). clear - G. revert o G.
    induction requests as [|n l IH]; intros o G; cbn [fold_left]; auto. apply IH.
    unfold prg_obj_generate. destruct (prg_sequence n (po_state o)); auto. }
  unfold prg_obj_generate, prg_obj_reset; cbn [po_state po_initial]. rewrite Hi, Ho; cbn [po_state].
  destruct (prg_sequence k v); reflexivity.
Qed.
Print Assumptions C50_reset_replays.

Example C50_generator_exists :
  exists o, prg_obj_new [false; true; false; true; true; false; true] = Ok o /\
            snd (prg_obj_generate o 12) <> snd (prg_obj_generate (fst (prg_obj_generate o 3)) 12).
Proof. eexists; split; [reflexivity|]. vm_compute. discriminate. Qed.

(** ... but these are not the recurrences of the 3GPP Gold sequence, whose name it carries. *)
Theorem C50_3gpp_gold_sequence_refuted :
  exists (seed : bits) (o : prg_obj) (k : nat), length seed = 31 /\ prg_obj_new seed = Ok o /\
    snd (prg_obj_generate o k) <> map (c_3gpp seed) (seq 0 k).
Proof.
  exists (true :: repeat false 30).
  destruct (prg_obj_new (true :: repeat false 30)) as [o|e] eqn:E; [|vm_compute in E; discriminate].
  exists o, 16. split; [reflexivity|]. split; [reflexivity|].
  intros H. vm_compute in E. injection E as <-. vm_compute in H. discriminate.
Qed.
Print Assumptions C50_3gpp_gold_sequence_refuted.
