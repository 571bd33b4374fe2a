(** C17, C18: contents and advertised sizes of resource grids. *)
From Coq Require Import List Arith Bool Lia.
From Verif Require Import Base BaseLemmas Grid_Model Grid_Spec Grid_Proofs GridSamples_Proofs.
Import ListNotations.

(** A waveform with two resources, a guard, a pilot section with configured elements and
    a leading pilot section. *)
Definition demo : @wave nat :=
  mkWave 8
    [mkResource 2 CYCLIC 1 4 [mkElement DATA 1; mkElement REFERENCE 1; mkElement NULL 1];
     mkResource 1 ZEROPAD 1 2 [mkElement REFERENCE 1; mkElement DATA 3]]
    [SymSec 2 [0; 1] 0; GuardSec 3; PilotSec (Some [7; 9; 8]); SymSec 1 [1] 0]
    (Some None) [100; 200; 300] true (fun n => repeat 50 n).
Lemma demo_pilots : pilots_ok demo.
Proof. split; [intro n; apply repeat_length|repeat constructor]. Qed.
Lemma demo_fits : fits demo.
Proof. repeat constructor. Qed.

(** *** C17 *)

(** Whatever [place] accepted, [pick] returns: all data symbols, in order. *)
Theorem C17_pick_inverts_place {A} (zero : A) (w : wave) (data : list A) grid :
  pilots_ok w -> place zero w data = Ok grid -> pick w grid = Ok data.
Proof. intros Hp H. apply (place_inv zero w data grid Hp) in H as (_ & ? & ? & H). apply H. Qed.
Print Assumptions C17_pick_inverts_place.
Example C17_pick_inverts_place_met :
  exists g, place 0 demo (seq 1 13) = Ok g /\ pick demo g = Ok (seq 1 13).
Proof. eexists. split; vm_compute; reflexivity. Qed.

(** The placed grid holds the data symbols in order at the data positions of the resource
    mask, the expected reference symbols in order at its reference positions and zero
    everywhere else. *)
Theorem C17_grid_contents {A} (zero : A) (w : wave) (data : list A) grid :
  pilots_ok w -> place zero w data = Ok grid ->
  exists mask refs, resource_mask w = Ok mask
    /\ pilot_symbols w (references_per_frame w) = Ok refs
    /\ shape (words_per_frame w) (w_sub w) mask
    /\ shape (words_per_frame w) (w_sub w) grid
    /\ map (entry zero grid) (positions DATA (words_per_frame w) (w_sub w) mask) = data
    /\ map (entry zero grid) (positions REFERENCE (words_per_frame w) (w_sub w) mask)
       = expected_refs zero w (w_struct w) refs
    /\ forall i j, i < words_per_frame w -> j < w_sub w ->
         entry None mask (i, j) <> Some DATA -> entry None mask (i, j) <> Some REFERENCE ->
         entry zero grid (i, j) = zero.
Proof.
  intros Hp H. apply (place_inv zero w data grid Hp) in H
    as (_ & refs & m & Hr & Hm & Hd & Sg & Sm & Gd & Gr & Gb & _).
  exists m, refs. rewrite <- !(gather_positions zero) by assumption.
  repeat (split; [assumption|]). intros i j Hi Hj N1 N2.
  apply (blank_entry zero _ _ m grid i j Sm Sg Gb Hi Hj).
  - destruct (entry None m (i, j)) as [[]|]; cbn in *; congruence.
  - destruct (entry None m (i, j)) as [[]|]; cbn in *; congruence.
Qed.
Print Assumptions C17_grid_contents.
Example C17_grid_contents_met : place 0 demo (seq 1 13) = Ok
  [[1; 100; 0; 2; 200; 0; 0; 0];
   [300; 3; 4; 5; 0; 0; 0; 0];
   [6; 100; 0; 7; 200; 0; 0; 0];
   [300; 8; 9; 10; 0; 0; 0; 0];
   [7; 9; 8; 7; 9; 8; 7; 9];
   [100; 11; 12; 13; 0; 0; 0; 0]].
Proof. vm_compute. reflexivity. Qed.

(** Without pilot sections in the structure the k-th reference position holds the k-th
    symbol of the endlessly repeated pilot sequence. *)
Theorem C17_references_follow_the_pilot_sequence {A} (zero : A) (w : wave) (data : list A) grid mask k p :
  pilots_ok w -> forallb (fun s => negb (is_pilot s)) (w_struct w) = true ->
  place zero w data = Ok grid -> resource_mask w = Ok mask ->
  nth_error (positions REFERENCE (words_per_frame w) (w_sub w) mask) k = Some p ->
  nth_error (w_seq w) (k mod length (w_seq w)) = Some (entry zero grid p).
Proof.
  intros Hp Hn H Hm Hk. apply (place_inv zero w data grid Hp) in H
    as (Hf & refs & m & Hr & Hm' & Hd & Sg & Sm & Gd & Gr & Gb & _).
  rewrite Hm in Hm'. injection Hm' as <-.
  pose proof (pilot_symbols_spec w _ _ Hr) as [Hl Hnth].
  rewrite <- frame_refs_expected in Gr; [|apply Hp|apply pilots_sec_ok, Hp].
  rewrite frame_refs_no_pilot in Gr by assumption.
  rewrite (gather_positions zero REFERENCE _ _ mask grid Sm Sg) in Gr.
  assert (HE : nth_error refs k = Some (entry zero grid p)).
  { rewrite <- Gr, nth_error_map', Hk. reflexivity. }
  rewrite <- Hnth; [exact HE|]. rewrite <- Hl. apply nth_error_Some. congruence.
Qed.
Print Assumptions C17_references_follow_the_pilot_sequence.
Definition demo2 : @wave nat :=
  mkWave 8 (w_res demo) [SymSec 2 [0; 1] 0; GuardSec 3; SymSec 1 [1] 0] None [100; 200; 300] true
    (fun n => repeat 50 n).
Example C17_references_follow_the_pilot_sequence_met :
  match place 0 demo2 (seq 1 13), resource_mask demo2 with
  | Ok grid, Ok mask =>
      nth_error (positions REFERENCE (words_per_frame demo2) (w_sub demo2) mask) 4 = Some (2, 4)
      /\ entry 0 grid (2, 4) = 200
  | _, _ => False
  end /\ forallb (fun s => negb (is_pilot s)) (w_struct demo2) = true.
Proof. vm_compute. auto. Qed.

(** *** C18 *)

(** Exactly the frames with the advertised number of data symbols are accepted, provided
    every section fits the subcarriers and the pilot sequence can be provided. *)
Theorem C18_place_accepts_the_advertised_number {A} (zero : A) (w : wave) (data : list A) :
  pilots_ok w ->
  (is_ok (place zero w data) <->
   length data = num_data_symbols w /\ fits w /\ references_available w).
Proof. apply place_ok. Qed.
Print Assumptions C18_place_accepts_the_advertised_number.
Example C18_place_accepts_met : num_data_symbols demo = 13 /\ fits demo /\ references_available demo.
Proof. split; [reflexivity|]. split; [exact demo_fits|]. split; [discriminate|left; reflexivity]. Qed.

(** The mask of a frame has the advertised number of words and subcarriers, and contains
    the advertised numbers of data and reference positions; the reference positions of
    pilot sections with configured elements are not advertised. *)
Theorem C18_advertised_counts_are_the_mask {A} (w : @wave A) :
  fits w -> exists mask, resource_mask w = Ok mask
    /\ shape (words_per_frame w) (w_sub w) mask
    /\ length (positions DATA (words_per_frame w) (w_sub w) mask) = num_data_symbols w
    /\ length (positions REFERENCE (words_per_frame w) (w_sub w) mask)
       = references_per_frame w + length (filter has_elements (w_struct w)) * w_sub w
    /\ symbols_per_frame w = num_data_symbols w + references_per_frame w.
Proof.
  intro Hf. destruct (masks_spec w _ Hf) as (m & Em & Sm & C1 & C2).
  exists m. split; [exact Em|]. split; [exact Sm|].
  assert (HS : symbols_per_frame w = num_data_symbols w + references_per_frame w).
  { unfold symbols_per_frame, num_data_symbols, references_per_frame. clear.
    induction (w_struct w) as [|s l IH]; [reflexivity|]. cbn [map sum]. lia. }
  assert (HL : forall ty, length (positions ty (words_per_frame w) (w_sub w) m) = count_sel (sel_of ty m)).
  { intro ty. pose proof (length_positions 0 ty _ _ m Sm) as HP. exact HP. }
  rewrite !HL. split; [exact C1|]. split; [|exact HS].
  rewrite C2. apply actual_refs_sum.
Qed.
Print Assumptions C18_advertised_counts_are_the_mask.
Example C18_advertised_counts_met :
  fits demo /\ words_per_frame demo = 6 /\ num_data_symbols demo = 13 /\ references_per_frame demo = 7
  /\ symbols_per_frame demo = 20.
Proof. split; [exact demo_fits|]. vm_compute. auto. Qed.

(** Hence the references advertised are in general not those in the grid. *)
Theorem C18_all_references_advertised_refuted :
  ~ (forall (w : @wave nat) mask, pilots_ok w -> resource_mask w = Ok mask ->
       length (positions REFERENCE (words_per_frame w) (w_sub w) mask) = references_per_frame w).
Proof.
  intro H. specialize (H demo _ demo_pilots eq_refl). vm_compute in H. discriminate.
Qed.
Print Assumptions C18_all_references_advertised_refuted.

(** A modulated frame has exactly the advertised number of samples, whatever the
    transformation of the waveform does. *)
Theorem C18_samples_per_frame {A} (zero junk : A) fwd (w : wave) os grid samples :
  shape (words_per_frame w) (w_sub w * os) (fwd grid) ->
  modulate zero junk fwd w os grid = Ok samples -> length samples = samples_per_frame w os.
Proof. apply modulate_length. Qed.
Print Assumptions C18_samples_per_frame.
Example C18_samples_per_frame_met :
  let grid := map (fun k => seq (8 * k) 8) (seq 0 6) in
  shape (words_per_frame demo) (w_sub demo * 1) grid
  /\ match modulate 0 999 (fun g => g) demo 1 grid with
     | Ok x => length x = samples_per_frame demo 1 /\ length x = 75
     | Raise _ => False
     end.
Proof.
  cbv zeta. split.
  - split; [reflexivity|]. apply Forall_forall. intros r Hr. apply in_map_iff in Hr as (k & <- & _).
    apply seq_length.
  - vm_compute. auto.
Qed.

(** The words handed to the sample placement come back from the sample picking, for
    every prefix configuration without sample offsets: prefixes are skipped, guard
    intervals and unused buffer space never reach the symbols. *)
Theorem C18_framing_is_lossless {A} (zero junk : A) fwd bwd correct (w : wave) os grid :
  shape (words_per_frame w) (w_sub w * os) (fwd grid) ->
  (forall e, w_pilot w = Some e -> length (concat (fwd [pilot_sequence w e (w_sub w)])) = w_sub w * os) ->
  prefixes_ok w os -> Forall (fun s => sec_offset s = 0) (w_struct w) ->
  exists samples, modulate zero junk fwd w os grid = Ok samples
    /\ demodulate bwd correct w os samples = Ok (bwd (fwd grid)).
Proof.
  intros S P X O.
  assert (R : Forall (sec_res_ok w os) (w_struct w)).
  { rewrite Forall_forall in O |- *. intros s Hs. specialize (O s Hs).
    destruct s as [reps pat off|n|e]; cbn [sec_res_ok sec_offset] in *; auto. intros i Hi. split.
    - intro Hc. eapply X; eauto.
    - auto. }
  destruct (frame_samples zero junk fwd w os grid S P R) as (y & Ey & Ly & Dy).
  exists y. split; [exact Ey|]. rewrite Dy, correct_none, rotated_none; [reflexivity| |exact O|exact O].
  apply S.
Qed.
Print Assumptions C18_framing_is_lossless.
Example C18_framing_met :
  let grid := map (fun k => seq (8 * k) 8) (seq 0 6) in
  prefixes_ok demo 1 /\ Forall (fun s => sec_offset s = 0) (w_struct demo)
  /\ match modulate 0 999 (fun g => g) demo 1 grid with
     | Ok x => demodulate (fun g => g) (fun _ g => g) demo 1 x = Ok grid
     | Raise _ => False
     end.
Proof.
  cbv zeta. split; [|split; [repeat constructor|vm_compute; reflexivity]].
  intros reps pat off i Hs Hi _. cbn in Hs.
  destruct Hs as [Hs|[Hs|[Hs|[Hs|[]]]]]; try discriminate Hs; injection Hs as <- <- <-;
    cbn in Hi; repeat destruct Hi as [<-|Hi]; try tauto; vm_compute; lia.
Qed.
