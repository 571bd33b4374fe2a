# Formal model of hermespy in Rocq (Coq 8.16.1)

## How the development is organised

Every subsystem `X` has up to four files in `rocq/theories/`:

| file | contents |
|---|---|
| `X_Model.v` | function-by-function model of the Python code. Every definition cites file and lines in `/repo`; simplifications are named there. No proofs. |
| `X_Spec.v`  | small specification vocabulary (what the English property talks about). Uses the model for its data types and observable results only. |
| `X_Proofs.v`| lemmas. |
| `X_Props.v` | the property theorems, one `Print Assumptions` per theorem, and `Example`s showing that the hypotheses are met by a non-trivial case. |

Python exceptions are values (`option` / `result`), mutable objects are
explicit state passed through a fold over a list of operations, numpy arrays
are lists (of lists) with the numpy slicing rules written out, floating point
numbers are replaced by exact numbers (`Z`, `Q`, `R`, or the complex numbers of
Coquelicot, pairs of standard library reals). Randomness and external libraries enter as
explicit arguments (oracles) over which theorems quantify.

Where a property a user would rely on is false of the code, the full statement is
kept and refuted by a concrete witness (`..._refuted`), and the strongest true
version is proved next to it.

## Trusted base

* Coq's kernel (8.16.1) and `coqchk`.
* The axioms reported by `Print Assumptions` (see the section "Assumptions" at
  the end of this file).
* The fidelity of the `_Model.v` files to the Python text. Floating point
  rounding, numpy / scipy internals, HDF5, ray and the operating system are not
  modelled.

## Plan per property

| id | what is modelled | how it is proved |
|---|---|---|
| C01, C02 | `EncoderManager.encode/decode`, block loops, padding, truncation, `code_block_size`; member codes are arbitrary functions on blocks | induction over the stack; per-stage block round trip; refutation for non-dividing sizes |
| C03 | repetition encode (tile) / decode (majority over axis 0) on bit lists | counting argument per position |
| C04 | reshape/transposition on lists | index formula, then inverse by index arithmetic |
| C05 | CRC encode/decode slicing | list lemmas; refutation for zero |
| C06, C07 | LFSR state machines, block-by-block histories | induction over histories with state equality as invariant |
| C08, C09 | queue manager and collector as state machines over arbitrary operation lists | invariant over operation lists |
| C10, C11 | actor batch loop with stage recursion; dimension sorting | invariant "stored stage outputs are the fresh outputs" ; refutation with two dimensions |
| C12, C13 | files as lists of links and attributes by path; writer and reader states with their caches; heaps of objects; classes as the lists of fields they write and read (Ser_Model) | simulation between writer and reader along the rank of objects, with bijections of addresses and array identifiers as invariant (SerRead_Proofs); frame lemmas for histories (SerHist_Proofs); refutations for cycles, reading order, reused identifiers, reserved names |
| C59 | recordings as lists of sessions appended to one file, each with a campaign, a state and drops from changing memories (Rec_Model); replay with offset and counter | invariant per campaign: number of drops, fresh names above, each drop readable from every file that agrees below its group; regions of different campaigns are disjoint (Rec_Proofs) |
| C60 | frames with pose, base, links and both caches, the mutually recursive attachment methods as written, over any type of transformations (Kin_Model) | refinement of a cache-free world: every cache fits the world, links mirror attachments; clearing below a moved frame covers all chains that pass it (Kin_Proofs); lookat and cycles refuted |
| C61-C63 | 3x3 matrices and vectors of reals, arctan2 by cases, quaternion and angle formulas as written (Rot_Model) | matrix algebra by ring / nsatz, polar coordinates for arctan2, cofactor identities for reading angles (Rot_Proofs); gimbal lock, quaternion reading, planar positions and pointing upwards refuted |
| C64 | Antenna patterns: kinds, poses and `global_characteristics` over the reals; the two global components describe the turned local field vector (expansion in an orthonormal frame); bounds incl. Jordan's inequality for the dipole; the local-location overload refuted |
| C65 | Array topologies and phase responses over the reals and complex exponentials; distances are invariant under rigid transformations; explicit far-field bound |
| C66 | Uniform arrays: invariant over histories of setter calls (refused ones included); grid enumeration without repetition; negative dimensions refute the count |
| C67 | Beam_*: conventional weights from positions along the scene's axes; plane waves as phases of positions in the array's frame. Sum of products of conjugated phases; triangle inequality. Refuted for turned arrays. |
| C68 | Beam_*: covariance, inverse as an argument with the law of a right inverse, weights. Completing the square in the loaded covariance form. |
| C69 | Beam_*: projection by a generalised inverse of the Gram matrix of the two null responses. (G X - 1) A^T vanishes since its Gram matrix does. Service of the focus refuted (missing conjugation). |
| C70 | Chan_*: channel samples and states as finite arrays over exact complex numbers; both propagations are proved equal to one superposition of delayed, weighted streams (Chan_Spec.received). Two refutations (tap count equal to a path delay, receive antenna count). |
| C71 | Chan_*: linearity and causality of that superposition, transported to all samples and states. |
| C72 | Chan_*: block lists with offsets, Signal.Create, to_dense; equality for time invariant taps and gaps at least the memory; refuted for smaller gaps and for motion. |
| C73 | Chan_*: conversions through the DFT round trip, index arithmetic of `linear`, reciprocity for single active antennas. Refuted: samples kept, linear for two transmitters. |
| C74 | Chan_*: the in-place write of ideal channels is modelled by returning the argument after the call; rice gains as real numbers. Refuted: repeatability. |
| C75 | Scenarios as records of devices, links (dictionary by unordered pairs) and channels, calls as a state machine over all scenarios (Net_Model) | Invariant over all lists of calls; before/after theorems for each call; pigeonhole for device_channels; two refutations |
| C76 | The double loop of `propagate` over abstract sampling and propagation functions, with the transmitted signals as state | Invariant over the visited pairs; channels listed by invariant; refutations (replaced default channel, in-place scaling using Chan_Model, unassigned default channel) |
| C77 | Trigger groups as state machine, `realize_triggers`, offsets over the reals and in binary64 (SpecFloat) | Invariant, induction over devices, floor arithmetic; binary64 refutation by computation |
| C78 | `Isolation.leak` and its three implementations on block signals; numbers that may be non-finite as options | Linear algebra over finite sums, reduction to the channel state propagation of C72; witnesses |
| C79 | `Coupling.transmit/receive`, impedance matrices with element-wise powers, matrix inverse as oracle with its specification | Finite sums; every entry shown non-finite for two or more antennas |
| C80 | `generate_output` with aliasing of the mixed signal and the operators' signal objects, default RF chain, antenna weights, power | Invariant over the mixing loop on top of C40; witnesses for aliasing and port selection |
| C81 | `process_from_realization` up to the receivers: sparse superposition, conversion, weights, leakage | Induction on top of C40; windows of the union of blocks for continuity and gaps |
| C82 | All power amplifiers: parameter checks, gain, per-sample characteristics over R/C, np.interp | Inequalities about powers and square roots; induction over the interpolation points; refuted: finiteness of Saleh, list lengths, memory polynomial |
| C83 | RFSignal with per-stream frequencies and powers; Mixer, IdealMixer, X4 | Case analysis over the attribute bookkeeping, complex products; refuted: mirrored frequencies, stale attribute |
| C84 | Sum, Split, Shift, Source, RampGenerator, phase noise | Induction over streams, floors of reals, trigonometric addition; refuted: splits, quantized phases, falling ramps |
| C85 | Noise levels, AWGN realizations, RFBlock.propagate without filter | Real arithmetic; induction over the history of channel samples; refuted: noise power bookkeeping |
| C86 | Sc_Model: positions, writes and picks as list functions, uninitialised frames as `None` | closed form of data positions (sorted lists with equal elements), permutation of all positions; single symbol, discarded pilot sequence refuted |
| C87 | Sc_Model: convolution, combs, filters over Coquelicot's complex numbers | associativity of convolution, comb response, equivalence with Nyquist's criterion; raised cosine with oversampling, odd lengths, root raised cosine, FMCW duration and pilot signal refuted |
| C88 | Sc_Model: interpolation of quotients, zero forcing of one stream | affine interpolation over sorted stems, linearity of demodulation, composition of all stages |
| C89 | Cfsk_Model: bit mapping, trapezoidal phases of chirps, slice assignments with uninitialised samples, correlation detector | binary representation round trip, strict triangle inequality for sums of unit numbers, first sample separates chirps; guard, short chirps and large differences refuted |
| C90 | Sync_Model: full correlation, scipy's plateau peak search with height and distance selection, index correction | greedy selection invariant, sortedness of plateau middles, spaced high entries are exactly the peaks, correlation of an isolated pilot is its autocorrelation; unused settings, boundary sample and short signals refuted |
| C14-C16, C58 | mappers with exact real arithmetic: 3GPP amplitude formulas, tables, normalisation, hard detection by first nearest point with the rescaling loop over bit offsets, piecewise likelihood ratios as written | the piecewise ratios are proved equal to max-log differences for each amplitude order (case split on the pieces), lifted to both dimensions; Gray and energy checks over the finitely many labels by computation on integers; custom tables by general arguments on lists |
| C17, C18 | grid resources, sections, place/pick, counts | structural induction |
| C19, C20 | complex numbers of Coquelicot; `numpy.fft`, shifts, padding, Fresnel transform, prefixes | orthogonality of roots of unity (proved in `Cplx_Proofs.v`) composed with the framing theorem of C18 |
| C21-C23 | encoders/decoders over the complex numbers of Coquelicot | field identities, induction over pairs |
| C24, C25 | chain of abstract precoders, `__setitem__`, constructors | induction over chains; refutations |
| C51, C52 | zero forcing with an abstract pseudo inverse (first Penrose condition only), selection combining | linear algebra over finite sums; argmax |
| C26, C53, C54 | frame loops of transmission and reception, concatenation of bits and symbols, stream mapping, time stamps; columns of samples are an arbitrary type, modulation, stream coding and the synchronization routine are arbitrary functions | list partition lemmas, induction over frames; frame across blocks and reception time stamp refuted |
| C27-C29 | evaluators on bit lists including padding/broadcast rules of numpy | counting lemmas; induction over frame lists; refutations for broadcast corner cases |
| C55 | error vector magnitude over Coquelicot's complex numbers | real analysis of finite sums |
| C30, C31 | chain state machine; memoised recursive evaluation | invariants; fuel-free semantics by well-founded depth |
| C32-C34, C56 | quantizer, gain control and framing of converters over `R` (exact real arithmetic; the spectral norm is any function with its specification); mid-tread resolution and RMS gains of several streams are refuted | floor arithmetic, Cauchy-Schwarz |
| C35, C57 | logarithmic numbers and sequences over `R`; sequences of amplitudes and in-place arithmetic are refuted | real analysis (`Rpower`, `ln`) |
| C36, C37 | cubes as functions with a shape over `R`; convolution as sum over window offsets, proved equal to the sum over training cells; the position reported by the maximum detector and detection in cubes with negative entries are refuted | membership characterisations, reindexing of sums, `exp` inequalities |
| C38 | object graph of waveforms and components | invariant over operation lists |
| C39-C42 | signal blocks as offset + matrix columns | denotation of a signal as a function from time to columns |
| C50 | `PseudoRandomGenerator` queues and reset copies (scrambler.py:33-126) | window invariant linking the queues to streams; computed witness against TS 38.211 |
| C47-C49 | progress query with numpy indexing; stage recursion counts; collector/actor threads as a labelled transition system | invariants over reachable states, concrete schedules as refutations |
| C45, C46 | execution order sort; required bits search | induction |
| C43, C44 | node hierarchy, hook lists as state machines | invariants over operation lists |
| C91 | Mf_Model: padding, beamforming, Doppler hypotheses, two-dimensional valid correlation with broadcasting, axes | Cauchy-Schwarz inequality for sums, energy of windows of an echo, rounding lemmas; minimum range, coarse velocities and several transmit antennas refuted |
| C92 | Fmcw_Model: chirps, pulses, frames, mixing with numpy broadcasting, abstract decimation filter, two-dimensional transform, axes, Radar._receive | orthogonality of roots of unity over rows, beat phase algebra, triangle inequality; range labels, odd chirp counts, fractional durations, overlong chirps, velocity resolution refuted |
| C93 | Ofr_Model: symbol division with unused entries, two transforms, axes, numpy assignment with broadcasting; OFDM words from Ofdm_Model | double sums of phasors, triangle inequality, phases of rotated words (C19); Doppler labels and minimum range refuted |
| C94 | Rch_Model: device states, target and interference paths, delays, velocities, responses over the antenna model of C61-C65 | path lengths as functions of time and their derivatives (Coquelicot); triangle and Cauchy-Schwarz inequalities; power of antenna fields kept by rotations; refutation of a common Doppler convention |
| C95 | Rch_Model: add_propagation, propagate, add_state, state, null hypothesis on the blocks of Chan_Model | folds over paths refine the sum of echoes; linearity and permutations by induction over paths; the state by exchanging sums; refutations for fast approach, later null hypotheses and one-way antennas |
| C96 | Tgt_Model: configuration checks, draws and paths of single and multi target radar channels, target bookkeeping | characterisation of the setters; interval arithmetic of the draws; induction over targets and over action histories; refutations for the origin convention, the inverted pose and later targets |
| C97 | Cons_Model: registration of variables, drawing, sampling and the radial velocity search | invariant over registration histories (offset = size of the prefix); Lipschitz bound by the mean value theorem and Cauchy-Schwarz; strict monotonicity of the distribution function by its derivative, termination by its lower bound, roots by the intermediate value theorem |
| C98 | Roc_Model.v: detection, operating characteristic (artifacts, sections, thresholds, curve, scenarios, campaigns, plotted numbers) and root mean square evaluators over the reals | histories as folds; counting lemmas (monotone, permutation, affine), thresholds as arithmetic progression, mean over pairs by induction; six refutations with witnesses |
| C99 | Smp_Model.v: hooks, realizations, links and propagation as a state machine over histories of calls; what is specific to a channel is a parameter | invariant over histories (registered hooks, gain, realizations never change); five refutations |
| C100 | Cfg_*: each class as a schema (calls made by serialize / Deserialize), an interpreter for the HDF process; sharing (C12) and constructor validation left out | a boolean checker per class proved sound by nested induction over objects, run over the table; refutations by witnesses and by general arguments |
| C101 | Cal_*: devices and calibrations as a heap; the recursive setters with fuel | invariant over reachable worlds (every shown calibration names its device); fuel 5 shown sufficient; refutations as general theorems |
| C102 | Corr_*: dense signals, exact reals, rounding half to even, argmax; the hardware is an arbitrary function | exact formulas for every sample; estimation by argmax and mean lemmas; refutations as general theorems |
| C103 | Leak_*: leakage removal and least squares estimation over dense signals with exact DFTs; the peak filter and MMSE estimation left out | sums over port pairs; spectrum of the root-1 Zadoff-Chu sequence has no zero (shift recurrence + inverse DFT), cyclic convolution theorem; refutations as general theorems |
| C104 | Fad: taps, constructor checks, sorting, sampled paths, exponential and tabulated profiles, antenna covariances and the spatial response | Permutation and order by induction; telescoping series with a vanishing bound for the infinite spread; finite telescoping for the truncated one; explicit factorisation of the covariances (Gaussian binomials); refutations for the angle, the sinusoids, profile D, the squared correlation and the ten antennas |
| C105 | Nz: noise realizations on block structured signals, receiver inputs with linear decoding and port selection, energy scales of channel samples (on the channel models of Chan), communication noise levels | second moments over arbitrary finite ensembles of white draws by orthogonality of sums; energy balance of propagation; witnesses where reported and actual powers differ |
| C106 | Nz: oscillator phase noise with its integrator and flicker filter | recurrence of the self convolution, induction on the coefficients, second moments of filtered white sequences |
| C107 | Power and PAPR evaluators, signal extractors and their results, powers and energies of signals | invariants over histories; sums over instants of ordered blocks; bounds with equality cases; array filling by induction over the assignments; refutations by witnesses |
| C108 | Scenario as a state (mode, devices, open recording/replay, drop counter, campaign, replay file) next to a disk mapping files and campaigns to lists of drops (C59); operations add device, set campaign, record, replay, stop, drop | Scn_*.v; invariant over histories, induction over calls during a recording/replay, counting of notifications, refutations as general theorems |
| C109 | Cluster delays, powers, elimination, oxygen loss and energy of cluster delay line samples as functions of the draws; angular spread; tables of the fixed profiles | Cdl_*.v; uniqueness of sorted permutations, sum laws, polynomial bounds on the delay scale, double-sum identity for the angular spread, refutations as general theorems or witnesses |
| C110 | Order, delays, weights and Doppler rotation of the rays of cluster delay line samples, propagation, channel state, reciprocal samples, queried antenna directions | Ray_*.v; sums over visits equal sums over clusters, rays and arrivals, superposition by induction over the generated paths (reusing Chan_*.v), refutations as general theorems or witnesses |
| C111 | Pl_Model: path losses of the five scenarios with math.log10 raising for numbers that are not positive, line of sight probabilities and decisions, the link from positions to a power factor; exact reals | maxima, logarithm laws, products of monotone factors, exponential bounds by powers; counterexamples at literals and general refutations against the standard's formulas |
| C112 | Ang_Model: scaling tables with the first closest row, line of sight polynomials, centres of clusters in azimuth and zenith, ray offsets, coupling by indices, local directions from poses; random numbers are arguments | first minimum of the table by induction, permutations keep means and squares, inverse rotations undo rotations; refutations for shared draws, rotated devices, low Rice factors and unwrapped zeniths |
| C113 | Oest_Model: ideal estimation section by section (mean over the samples of a word per tap, spectrum of the taps, cut to the word length), cached channel state, cutting of synchronised frames, single stream zero forcing; transmission by Grid_Model, Ofdm_Model and the state propagation of Chan_Model; constant impulse responses for the positive theorems | words carry their cyclic extension by induction over sections; convolution over a window equals a sum of cyclic rotations; linearity of the transform; concrete two subcarrier frames refute the corners |
| C114 | Phy_Model: device memory (settings, hardware memory, last upload, cached noise) with one function per call, hardware as a record of upload, trigger and download with a loop back and a USRP instance, processing routines as parameters, dummies with their two memories | invariant over histories of calls relating memories to what the calls returned, uniqueness of that description; arithmetic of paddings for the USRP; concrete integer signals refute the corners |
| C115 | Lobe_*: sidelobe evaluator (default codebook, callbacks, setters, evaluate) and interference evaluators with exact numbers; signals as blocks of streams | induction over histories; energies rewritten to plane wave responses (C67 lemmas); bound by Cauchy-Schwarz by induction; codebook rows by grid indexing; refutations on two antennas |
| C116 | Hwl_*: visits of the grid, passes with hooks, dimensions, drop and evaluators as arbitrary state transformers that may raise, interruption, debugging, recording; dimensions; stand-in scenario; plot thread and main thread as program counters stepped by an arbitrary schedule | index lists by induction over the shape; induction over the visits; origin of artifacts as an invariant of state transformers; invariant over schedules for the threads, progress by cases; refutations by schedules and small scenarios |
| C117 | Nr_*: sequences, resources with integer (possibly negative) repetitions and numpy slicing, waveforms as instances of the grid model (C17, C18), durations as rationals, serialized fields | recurrences by induction, the fixed sequences by complete computation over all 127 shifts; layouts by rewriting with the grid lemmas for every number of blocks; refutations general or by computation |
| C118 | Frames of Grid_Model over channels with a coefficient for every cell; the estimation with scipy's interpolations as arguments; zero forcing | stored tables looked up by cell, interpolated values as weighted means, bound by induction over the weights; refutations for references in one word and pilot sections |
| C119 | The simulation runner's stages over arbitrary devices, channels and draws; actor stages, seeds and arguments; campaign timestamps; progress pages; saved dictionary | stages chained backwards to a specified drop, invariants over histories of calls, ceilings over the reals, division lemmas; refutations for noise dimensions, timestamps, seeds across campaigns and equal titles |
| C120 | File systems as maps from paths to kinds; directory creation and index search; concurrent processes with atomic steps; style attributes; verbosities; exception handling | fresh index by a counting argument over the paths, invariants over histories and schedules, decimal names read back; refutations for concurrent failures, order beyond 999, plot styles and lower case names |
| C121 | Samples of Quadriga and Sionna channels as functions of the traced paths: propagation, states, energy scales, with numpy's broadcasting of coefficients (Ext) | Folds over paths are sums of delayed copies; states are grouped by delay and compared with propagation through channel states; witnesses for mismatching antennas, invalid rays, rates and energies |
| C122 | File sources as positions in lists of bytes, packing of bits, frame generators with abstract packet headers (Gen), with the encoders (Fec) and bit errors (Eval) | Induction over requests with the unread rest of the file as invariant; byte round trips; a bit error free shifted frame is zero by induction from its end |
| C123 | Delay channels over real positions: delays from norms, path gains, propagation by Chan's delay sample, random delays by Cons' consistent variables with the distribution function as parameter (Dly) | Metric laws of the euclidean norm, Nz's energy law, decision of the setters; witnesses for the gain, close devices, reciprocity and decorrelation |
| C124 | Blocks as in Chan; sinc interpolation as complex sums, scipy's filters as parameters, the mixer's centred convolution with zeros around the samples (Res) | Sinc at whole numbers for kept samples and delays, bounds of rounding for times and overlaps, tones through the convolution for phases; witnesses for overlaps, counts and offsets |
| C125 | `Scx_*`: pilot sections with their cache, the Schmidl-Cox pilot on top of the OFDM transform of `Ofdm_Model`, the metric of the synchronization and the peak search of `Sync_Model` | invariant of the cache over histories; parity of the occupied bins; sliding sums of energy are unimodal, so that there is exactly one peak |
| C126 | Aud_Model: pressure_spectrum, pressure, played, transmission, reshape, upload, received, download on complex lists over the modelled DFT | spectrum of the real part of a signal, cut and rolled spectra; loopback as an equivalence with the spectral support; refutations by a four-sample tone with receive delay and by unequal port numbers |
| C127 | Ice_Model: csi over histories of samples, characteristics, filtered, summed, sc_states; bins, average, word_states, ofdm_estimate | circular convolution theorem for the modelled DFT behind a cyclic prefix, naturality of bin selection, round trip of C19; window sums for filters; refutations for the first symbol of rectangular pulses and for chirps |
| C128 | Opr_Model: slots as lists over histories of additions and removals, static operators with frame durations and transmissions, longest frames, realizations of the four trigger models | invariants by induction over histories (uniqueness, membership, order), maxima of lists with exceptions, truncation bounds; refutations for silent transmitters and replaced signals |
| C129 | TI XWR1843 radar waveform (Ti_Model): decimation, reshaping, two-dimensional transform as lists, bins, line reception | orthogonality of roots of unity, index arithmetic of shifts, real arithmetic of bins; resampling is a parameter assumed to keep signals of the right length |
| C130 | `Trc_Model.v`: traced paths and Quadriga coefficients as arguments, propagation and states | both reduce to the tapped delay line of `Chan_Spec`; refutations for taps, energy scale and antennas |
| C131 | `Tls_Model.v`: growth of the grid, tiles | invariant of the growing grid, division with remainder |
| C132 | `Tls_Model.v`: template and replacements | str.replace over pieces of the template without keys |
| C133 | `Iqs_Model.v`: splitting and recombining, angles as an argument | modulus of unit factors; signs of imaginary parts |
| C134 | Scenarios of physical devices: a memory of uploads and recordings, an arbitrary medium between devices that transmit together, signal processing that may raise at any device | Induction over the devices (first failure, uploads without duplicates) and over histories of added devices |
| C135 | `Foc_Model.v`: directions to moving devices and beamforming operators over the beamformers of `Beam_Model.v` | the scene's direction from its angles, then the phases of the antennas of turned arrays |
| C136 | `Hpf_Model.v`: settings, and forward-backward filtering with odd extension in exact arithmetic; the design of coefficients is an argument | induction over the samples of the recursive filter (linearity, steady states) |
| C137 | `Eqz_Model.v`: zero forcing and minimum-mean-square equalization of several streams in exact arithmetic; the pseudo-inverse is an argument satisfying the conditions of Moore and Penrose | algebra of finite sums from the conditions of the pseudo-inverse |

All properties listed so far can be expressed in a model; none is marked not applicable.

## Modelled and not modelled

What a model file covers, and what it leaves out, is stated in its header and at each definition (which cite files and lines). In short:

| model | properties | source files of `/repo/hermespy` |
|---|---|---|
| Adc | C32, C33, C34, C56 | `simulation/rf/blocks/ad.py`, `tools/math.py` |
| Amp | C82 | `simulation/rf/blocks/amps.py` |
| Ang | C112 | `channel/cdl/cluster_delay_lines.py` |
| Ant | C64, C65, C66 | `core/antennas.py`, `core/transformation.py`, `simulation/antennas.py` |
| Attach | C38 | `modem/waveform.py` |
| Aud | C126 | `hardware_loop/audio/device.py` |
| Beam | C67, C68, C69 | `beamforming/beamformer.py`, `beamforming/capon.py`, `beamforming/conventional.py`, `beamforming/nullsteeringbeamformer.py` |
| Blk | C83, C84, C85 | `core/signal_model.py`, `simulation/rf/block.py`, `simulation/rf/blocks/mixers.py`, `simulation/rf/blocks/ramp.py`, `simulation/rf/blocks/shift.py`, `simulation/rf/blocks/source.py`, `simulation/rf/blocks/split.py`, `simulation/rf/blocks/sum.py`, `simulation/rf/blocks/x4.py`, `simulation/rf/noise/level.py`, `simulation/rf/noise/model.py`, `simulation/rf/noise/phase_noise.py`, `simulation/rf/signal.py` |
| Cal | C101 | `hardware_loop/physical_device.py` |
| Cdl | C109 | `channel/cdl/cdl.py`, `channel/cdl/cluster_delay_lines.py` |
| Cfg | C100 | `beamforming/beamformer.py`, `beamforming/capon.py`, `beamforming/conventional.py`, `beamforming/nullsteeringbeamformer.py`, `channel/channel.py`, `channel/consistent.py`, `channel/delay/delay.py`, `channel/delay/random.py`, `channel/delay/spatial.py`, `channel/fading/cost259.py`, `channel/fading/exponential.py`, `channel/fading/fading.py`, `channel/fading/tdl.py`, `channel/ideal.py`, `channel/radar/multi.py`, `channel/radar/radar.py`, `core/antennas.py`, `core/channel.py`, `core/device.py`, `core/drop.py`, `core/factory.py`, `core/operators.py`, `core/precoding.py`, `core/pymonte/evaluation.py`, `core/pymonte/scalar.py`, `core/random_node.py`, `core/signal_model.py`, `core/transformation.py`, `core/visualize.py`, `fec/aff3ct_wrappers.py`, `fec/block_interleaver.py`, `fec/coding.py`, `fec/cyclic_redundancy_check.py`, `fec/repetition_encoder.py`, `fec/scrambler.py`, `hardware_loop/calibration/antennas.py`, `hardware_loop/calibration/delay.py`, `hardware_loop/calibration/leakage.py`, `hardware_loop/physical_device.py`, `jcas/jcas.py`, `jcas/matched_filtering.py`, `jcas/ofdm_radar.py`, `modem/bits_source.py`, `modem/evaluators.py`, `modem/frame_generator/frame_generator.py`, `modem/modem.py`, `modem/precoding/dft.py`, `modem/precoding/ratio_combining.py`, `modem/precoding/single_carrier.py`, `modem/precoding/space_time_block_coding.py`, `modem/precoding/symbol_precoding.py`, `modem/symbols.py`, `modem/tools/psk_qam_mapping.py`, `modem/waveform.py`, `modem/waveform_correlation_synchronization.py`, `modem/waveform_single_carrier.py`, `modem/waveforms/ieee_5gnr.py`, `modem/waveforms/orthogonal/ofdm.py`, `modem/waveforms/orthogonal/waveform.py`, `radar/cube.py`, `radar/detection.py`, `radar/fmcw.py`, `radar/radar.py`, `simulation/animation.py`, `simulation/coupling/impedance.py`, `simulation/coupling/perfect.py`, `simulation/drop.py`, `simulation/evaluators/interference.py`, `simulation/isolation/isolation.py`, `simulation/isolation/perfect.py`, `simulation/isolation/selective.py`, `simulation/isolation/specific.py`, `simulation/rf/block.py`, `simulation/rf/blocks/ad.py`, `simulation/rf/blocks/amps.py`, `simulation/rf/blocks/mixers.py`, `simulation/rf/blocks/ramp.py`, `simulation/rf/chain.py`, `simulation/rf/noise/level.py`, `simulation/rf/noise/model.py`, `simulation/rf/noise/phase_noise.py`, `simulation/rf/presets/ettus/x410.py`, `simulation/rf/signal.py`, `simulation/simulated_device.py` |
| Cfsk | C89 | `modem/waveform.py`, `modem/waveform_chirp_fsk.py` |
| Chan | C70, C71, C72, C73, C74 | `channel/channel.py`, `channel/delay/delay.py`, `channel/fading/fading.py`, `channel/ideal.py`, `core/channel.py`, `core/signal_model.py` |
| Cons | C97 | `channel/consistent.py` |
| Core | C43, C44 | `core/hooks.py`, `core/random_node.py` |
| Corr | C102 | `hardware_loop/calibration/antennas.py`, `hardware_loop/calibration/delay.py`, `hardware_loop/physical_device.py` |
| Dev | C80, C81 | `core/signal_model.py`, `simulation/antennas.py`, `simulation/rf/chain.py`, `simulation/simulated_device.py` |
| Dly | C123 | `channel/delay/delay.py`, `channel/delay/random.py`, `channel/delay/spatial.py`, `tools/math.py` |
| Eqz | C137 | `modem/symbols.py`, `modem/waveform.py`, `modem/waveform_single_carrier.py` |
| Eval | C27, C28, C29 | `modem/evaluators.py` |
| Evm | C55 | `modem/evaluators.py` |
| Exe | C120 | `core/definitions.py`, `core/executable.py` |
| Ext | C121 | `channel/quadriga/quadriga.py`, `channel/sionna_rt_channel.py` |
| Fad | C104 | `channel/fading/correlation.py`, `channel/fading/cost259.py`, `channel/fading/exponential.py`, `channel/fading/fading.py`, `channel/fading/tdl.py` |
| Fec | C01, C02, C03, C04, C05, C06, C07, C45, C46, C50 | `fec/block_interleaver.py`, `fec/coding.py`, `fec/cyclic_redundancy_check.py`, `fec/repetition_encoder.py`, `fec/scrambler.py` |
| Fmcw | C92 | `radar/fmcw.py`, `radar/radar.py` |
| Foc | C135 | `beamforming/beamformer.py`, `beamforming/operators.py`, `core/operators.py`, `core/transformation.py`, `simulation/beamforming.py` |
| Frames | C26, C53, C54 | `modem/bits_source.py`, `modem/modem.py`, `modem/symbols.py`, `modem/waveform.py` |
| Gen | C122 | `modem/bits_source.py`, `modem/frame_generator/frame_generator.py`, `modem/frame_generator/scapy.py` |
| Grid | C17, C18 | `modem/waveform.py`, `modem/waveforms/orthogonal/waveform.py` |
| Hpf | C136 | `simulation/rf/blocks/filters.py`, `simulation/rf/signal.py` |
| Hwl | C116 | `core/device.py`, `core/executable.py`, `core/pipeline.py`, `hardware_loop/hardware_loop.py` |
| Ice | C127 | `core/channel.py`, `modem/waveform_single_carrier.py`, `modem/waveforms/orthogonal/ofdm.py`, `simulation/modem/channel_estimation.py` |
| Iqs | C133 | `hardware_loop/precoding.py` |
| Iso | C78, C79 | `core/signal_model.py`, `simulation/coupling/coupling.py`, `simulation/coupling/impedance.py`, `simulation/isolation/isolation.py`, `simulation/isolation/perfect.py`, `simulation/isolation/selective.py`, `simulation/isolation/specific.py` |
| Kin | C60 | `core/transformation.py` |
| Leak | C103 | `hardware_loop/calibration/leakage.py` |
| Lobe | C115 | `simulation/evaluators/beamforming.py`, `simulation/evaluators/interference.py` |
| Log | C35, C57 | `core/logarithmic.py`, `tools/math.py` |
| Lse | C118 | `modem/waveform.py`, `modem/waveforms/orthogonal/channel.py` |
| Mf | C91 | `jcas/matched_filtering.py` |
| MonteConc |  | `core/pymonte/actors.py`, `core/pymonte/monte_carlo.py` |
| MonteResult | C09, C49 | `core/pymonte/actors.py`, `core/pymonte/scalar.py` |
| Monte | C08, C10, C11, C47, C48 | `core/pymonte/actors.py`, `core/pymonte/grid.py`, `core/pymonte/monte_carlo.py` |
| Net | C75, C76, C77 | `channel/channel.py`, `core/scenario.py`, `simulation/scenario.py`, `simulation/simulated_device.py` |
| Nr | C117 | `modem/ieee_5gnr.py`, `modem/waveform.py`, `modem/waveforms/ieee_5gnr.py`, `modem/waveforms/orthogonal/ofdm.py`, `modem/waveforms/orthogonal/waveform.py` |
| Nz | C105, C106 | `channel/delay/delay.py`, `channel/fading/fading.py`, `channel/ideal.py`, `core/signal_model.py`, `modem/waveform.py`, `modem/waveform_chirp_fsk.py`, `modem/waveform_single_carrier.py`, `modem/waveforms/orthogonal/waveform.py`, `simulation/modem/noise.py`, `simulation/rf/noise/level.py`, `simulation/rf/noise/model.py`, `simulation/rf/noise/phase_noise.py`, `simulation/simulated_device.py` |
| Oest | C113 | `modem/modem.py`, `modem/waveform.py`, `modem/waveforms/orthogonal/ofdm.py`, `simulation/modem/channel_estimation.py` |
| Ofdm | C19, C20 | `modem/precoding/dft.py`, `modem/waveforms/orthogonal/ocdm.py`, `modem/waveforms/orthogonal/ofdm.py`, `modem/waveforms/orthogonal/otfs.py` |
| Ofr | C93 | `jcas/ofdm_radar.py` |
| Opr | C128 | `core/device.py`, `core/operators.py`, `simulation/simulated_device.py` |
| Phy | C114 | `core/device.py`, `core/signal_model.py`, `hardware_loop/calibration/antennas.py`, `hardware_loop/physical_device.py`, `hardware_loop/physical_device_dummy.py`, `hardware_loop/uhd/usrp.py` |
| Pl | C111 | `channel/cdl/cluster_delay_lines.py`, `channel/cdl/indoor_factory.py`, `channel/cdl/indoor_office.py`, `channel/cdl/rural_macrocells.py`, `channel/cdl/urban_macrocells.py`, `channel/cdl/urban_microcells.py` |
| Precode | C21, C22, C23, C24, C25, C51, C52 | `core/precoding.py`, `fec/coding.py`, `modem/modem.py`, `modem/precoding/dft.py`, `modem/precoding/ratio_combining.py`, `modem/precoding/single_carrier.py`, `modem/precoding/space_time_block_coding.py`, `modem/precoding/symbol_precoding.py`, `modem/symbols.py`, `modem/waveform.py` |
| Psc | C134 | `core/scenario.py`, `hardware_loop/audio/scenario.py`, `hardware_loop/physical_device.py`, `hardware_loop/scenario.py`, `hardware_loop/uhd/system.py` |
| Pwr | C107 | `core/antennas.py`, `core/device.py`, `core/evaluators.py`, `core/signal_model.py` |
| Qam | C14, C15, C16, C58 | `modem/tools/psk_qam_mapping.py` |
| Radar | C36, C37 | `radar/cube.py`, `radar/detection.py` |
| Ray | C110 | `channel/cdl/cluster_delay_lines.py`, `core/definitions.py` |
| Rch | C94, C95 | `channel/radar/radar.py`, `core/state.py` |
| Rec | C59 | `core/scenario.py` |
| Res | C124 | `core/signal_model.py`, `tools/resampling.py` |
| Rf | C30, C31 | `simulation/rf/block.py`, `simulation/rf/chain.py` |
| Roc | C98 | `radar/evaluators.py` |
| Rot | C61, C62, C63 | `core/transformation.py` |
| Sc | C86, C87, C88 | `modem/waveform.py`, `modem/waveform_single_carrier.py` |
| Scn | C108 | `core/device.py`, `core/factory.py`, `core/scenario.py`, `simulation/scenario.py` |
| Scx | C125 | `modem/waveforms/orthogonal/ofdm.py`, `modem/waveforms/orthogonal/waveform.py` |
| Ser | C12, C13 | `core/factory.py` |
| Signal | C39, C40, C41, C42 | `core/signal_model.py` |
| Sim | C119 | `core/pymonte/actors.py`, `core/pymonte/monte_carlo.py`, `core/scenario.py`, `simulation/scenario.py`, `simulation/simulation.py` |
| Smp | C99 | `channel/channel.py`, `channel/ideal.py`, `core/device.py`, `core/signal_model.py`, `simulation/simulated_device.py` |
| Sync | C90 | `modem/waveform_correlation_synchronization.py` |
| Tgt | C96 | `channel/radar/multi.py`, `channel/radar/single.py` |
| Ti | C129 | `simulation/rf/blocks/ramp.py`, `simulation/rf/presets/ti/xwr1843.py` |
| Tls | C131, C132 | `tools/shermes.py`, `tools/tile.py` |
| Trc | C130 | `channel/channel.py`, `channel/quadriga/interface.py`, `channel/quadriga/quadriga.py`, `channel/sionna_rt_channel.py` |

Common to all models: numbers are exact (no floating point rounding, except where a refutation names binary64 arithmetic), array libraries are replaced by lists and functions with their indexing rules written out, random draws and external libraries are parameters the theorems quantify over, and logging, plotting, progress output, documentation, process scheduling by ray and the HDF5 file format are left out.

Files without any model: `channel/quadriga/matlab.py`, `channel/quadriga/octave.py`, `core/pymonte/artifact.py`, `core/pymonte/definitions.py`, `hardware_loop/visualizers.py`.

## Assumptions

Every theorem is followed by `Print Assumptions` in its `_Props.v` file. The axioms listed are those of the standard library only:

* `ClassicalDedekindReals.sig_forall_dec`, `ClassicalDedekindReals.sig_not_dec`: decidability used by the construction of the real numbers;
* `FunctionalExtensionality.functional_extensionality_dep`: used by the real numbers and for functions as arrays;
* `Classical_Prop.classic`: excluded middle, used by the analysis of the standard library and Coquelicot.

No axiom, parameter or hypothesis is added by this development. By set of axioms:

### none (closed under the global context)

381 theorems:

* `C01_decode_never_returns_wrong_bits`, `C01_encode_decode_roundtrip`, `C01_session_roundtrip`, `C01_roundtrip_refuted`
* `C02_requested_length_is_met`, `C02_no_truncation`, `C02_zero_length_refuted`
* `C03_repetition_corrects_exactly_minorities`, `C03_repetition_roundtrip`
* `C04_interleaver_is_a_lossless_permutation`, `C04_deinterleaver_is_injective`, `C04_documented_formula_refuted`
* `C05_crc_roundtrip`, `C05_zero_check_bits_refuted`
* `C06_3gpp_scrambling_is_transparent`, `C06_3gpp_same_object`
* `C07_80211a_equal_registers_are_transparent`, `C07_80211a_same_object_refuted`
* `C08_work_is_bounded_and_respects_disabling`, `C08_empty_batch_means_all_work_handed_out`, `C08_queue_runs_dry`
* `C10_cached_stages_are_up_to_date`
* `C11_sorted_dimensions_are_attributed_correctly`, `C11_sections_index_the_sorted_dimensions`, `C11_attribution_refuted`, `C11_valid_section_rejected_refuted`
* `C12_graphs_survive`, `C12_shared_exactly_if_same`, `C12_values_survive`, `C12_cycles_refuted`, `C12_order_refuted`, `C12_reused_identifiers_refuted`
* `C13_scalars`, `C13_integer_range`, `C13_arrays`, `C13_reserved_names_refuted`
* `C17_pick_inverts_place`, `C17_grid_contents`, `C17_references_follow_the_pilot_sequence`
* `C18_place_accepts_the_advertised_number`, `C18_advertised_counts_are_the_mask`, `C18_all_references_advertised_refuted`, `C18_samples_per_frame`, `C18_framing_is_lossless`
* `C24_chains_are_undone_in_reverse_order`, `C24_same_order_refuted`, `C24_stream_counts_are_consistent`, `C24_infeasible_requests_are_rejected`, `C24_encoded_block_count`, `C24_decoded_block_count`
* `C25_setting_a_coder`, `C25_setting_beyond_the_end`, `C25_removing_a_coder`, `C25_lists_are_applied_in_reverse`, `C25_listed_order_refuted`, `C25_reloading_reverses_the_chain`, `C25_coding_objects_loop_forever`, `C25_manager_encoders_are_duplicated`, `C25_empty_managers_and_lists_are_kept`, `C25_manager_kept_refuted`
* `C26_number_of_frames`, `C26_frames_partition_bits`, `C26_frame_positions`, `C26_default_synchronization`, `C26_padding_past_the_end`, `C26_blocks_independent`, `C26_round_trip_sparse`, `C26_round_trip_dense`, `C26_frame_across_blocks_refuted`
* `C27_error_positions`, `C27_rate_is_hamming_distance`, `C27_symmetric`, `C27_zero_iff`, `C27_zero_iff_equal`, `C27_missing_bits`, `C27_triangle`
* `C28_block_errors`, `C28_different_block_counts_raise`, `C28_single_block_is_broadcast`, `C28_missing_blocks_are_errors_refuted`
* `C29_frame_errors`, `C29_different_lengths`, `C29_single_bit`, `C29_frame_error_iff_different_refuted`, `C29_throughput`, `C29_no_reception`
* `C30_connect_is_atomic`, `C30_all_requested_wires_are_recorded`, `C30_open_blocks_face_the_antennas`, `C30_second_call_keeps_earlier_wires_refuted`, `C30_connected_ports_are_rejected_refuted`, `C30_missing_input_ports_are_rejected_refuted`
* `C31_transmit_evaluates_the_graph`, `C31_receive_evaluates_the_graph`, `C31_double_feed_is_harmless_refuted`
* `C32_number_of_bits`, `C32_no_quantization`
* `C37_training_cells`
* `C38_routines_report_their_waveform`, `C38_equalizers_report_their_waveform`, `C38_effect_of_an_assignment`, `C38_failed_assignment_changes_nothing_refuted`, `C38_detaching_a_stale_estimator_is_harmless_refuted`
* `C39_dense_form_of_a_sparse_signal`, `C39_sparse_form_of_a_matrix`, `C39_matrix_round_trip`, `C39_round_trip_of_cancelling_columns_refuted`, `C39_silence_keeps_its_streams_refuted`
* `C40_sparse_superposition_adds`, `C40_dense_superposition_adds`, `C40_late_signals_onto_dense_refuted`, `C40_added_signal_is_unchanged_refuted`, `C40_stream_selection_is_honoured_refuted`
* `C41_samples_appended_to_sparse`, `C41_samples_appended_to_dense`, `C41_sparse_rejects_other_stream_counts`, `C41_dense_rejects_other_stream_counts_refuted`, `C41_streams_appended_to_dense`, `C41_streams_appended_to_sparse`, `C41_sparse_streams_are_accepted`, `C41_sparse_streams_always_accepted_refuted`
* `C42_slices_select_instants`, `C42_small_steps_are_always_aligned`, `C42_all_steps_refuted`, `C42_negative_bounds_refuted`
* `C43_nodes_draw_from_their_mother`, `C43_draws_succeed_without_cycles`, `C43_cyclic_mothers_are_rejected_refuted`, `C43_seed_determines_the_stream`, `C43_equal_seeds_and_histories_draw_equal_numbers`, `C43_constructor_mother_refuted`
* `C44_every_registered_hook_is_notified_once`, `C44_remove_detaches_everywhere_refuted`, `C44_registration_during_notification_aborts_it`
* `C45_execution_order_is_a_stable_sort`
* `C46_required_data_bits_fill_the_code`, `C46_required_bits_refuted`
* `C47_progress_of_one_dimensional_grids`, `C47_two_dimensional_progress_refuted`, `C47_progress_query_raises_refuted`
* `C48_first_section_yields_all_argument_combinations`, `C48_equal_contribution_refuted`
* `C49_no_double_counting_while_running`, `C49_nothing_is_lost_without_overlap`, `C49_counted_twice_refuted`, `C49_lost_batch_refuted`, `C49_late_batch_dropped_refuted`
* `C50_generator_follows_its_recurrences`, `C50_reset_replays`, `C50_3gpp_gold_sequence_refuted`
* `C53_transmission_timestamp`, `C53_reception_timestamp_scale`, `C53_reception_timestamp_correct_iff`, `C53_reception_timestamp_refuted`
* `C54_streams_round_trip`, `C54_uneven_bits_raise`, `C54_symbols_of_frames`
* `C56_empty_frames_lose_the_signal`
* `C59_drops_are_replayed`, `C59_whole_campaigns_are_replayed`, `C59_first_state_is_restored`, `C59_reserved_campaign_refuted`
* `C60_caches_are_transparent`, `C60_transformation_is_determined`, `C60_local_coordinates`, `C60_lookat_refuted`, `C60_lookat_repaired`, `C60_cycle_refuted`
* `C65_requests_follow_the_modes`, `C65_subarrays`
* `C75_devices`, `C75_adding_a_device`, `C75_rejected_devices`, `C75_rejected_device_stays_refuted`, `C75_setting_a_channel`, `C75_unknown_devices`, `C75_default_channel`, `C75_channels_of_a_device`, `C75_active_channels_refuted`
* `C76_channels`, `C76_channels_in_use`, `C76_channels_in_use_refuted`, `C76_propagation`, `C76_propagation_with_a_replaced_default_channel`, `C76_explicit_channels_belong_to_the_scenario`, `C76_all_channels_belong_to_the_scenario_refuted`
* `C77_trigger_groups`, `C77_assigned_trigger`, `C77_removed_device_refuted`, `C77_trigger_realizations`, `C77_offset_in_double_precision_refuted`
* `C79_streams_are_checked`, `C79_perfect_coupling`, `C79_only_square_matrices`
* `C86_positions_partition_frames`, `C86_frames_hold_data_and_references`, `C86_pilot_symbols_are_not_repeated`
* `C89_bits_survive_mapping`, `C89_symbols_survive_unmapping`
* `C93_transmit_first`
* `C96_target_sets`, `C96_realizations`, `C96_realizations_flags`, `C96_fixed_realizations_refuted`
* `C97_slices`, `C97_registered_again`, `C97_shared_variables_refuted`
* `C98_detection`, `C98_thresholds_refuted`
* `C99_reciprocal_devices`
* `C100_restored`, `C100_unchanged`, `C100_lost`, `C100_stable`, `C100_unregistered_refuted`, `C100_evaluator_refuted`, `C100_tdl_refuted`, `C100_fading_realization_refuted`, `C100_integer_delay_refuted`, `C100_external_code_refuted`, `C100_snr_reference_refuted`
* `C101_setters_return`, `C101_shown_calibrations_know_their_device`, `C101_no_calibration_is_shared`, `C101_assigning_moves`, `C101_attaching_moves`, `C101_repeated_assignments`, `C101_replaced_calibrations_refuted`, `C101_lost_calibrations_refuted`
* `C104_custom_covariances`
* `C107_targets`, `C107_papr_signal`, `C107_stash`, `C107_stash_refused`
* `C108_modes`, `C108_drop_available`, `C108_devices`, `C108_devices_fixed`, `C108_recording`, `C108_recorded_number`, `C108_campaign_refuted`, `C108_timestamp_refuted`, `C108_record_refused`, `C108_reserved_campaign_refuted`, `C108_default_drops`, `C108_replay_only`, `C108_replay_starts`, `C108_replay_without_file`, `C108_replay_campaign_refuted`, `C108_replayed_drops`, `C108_replay_notes`, `C108_round_trip`, `C108_rewind_refuted`, `C108_num_drops_refuted`, `C108_stop`, `C108_append`
* `C114_history`, `C114_received`, `C114_refused`, `C114_direct`, `C114_direct_hardware`, `C114_stale_leakage_refuted`, `C114_played_twice_refuted`, `C114_filtered`, `C114_receive_filter_refuted`, `C114_constructor_refuted`, `C114_restored_refuted`, `C114_adaptive`, `C114_single_operator_refuted`, `C114_first_signal_refuted`, `C114_superposition_refuted`, `C114_usrp_echo`, `C114_usrp_parts_refuted`, `C114_usrp_weights_refuted`, `C114_dummy_history`, `C114_dummy_process_refuted`
* `C116_visits`, `C116_run`, `C116_complete`, `C116_origin`, `C116_interrupted`, `C116_debug`, `C116_debug_recording_refuted`, `C116_dimensions`, `C116_scenario_dimension_refuted`, `C116_stand_in_refuted`, `C116_plots_ordered`, `C116_last_plotted`, `C116_no_deadlock`, `C116_every_sample_refuted`, `C116_unplotted_refuted`, `C116_nothing_plotted_refuted`
* `C117_spacing`, `C117_numerology_refuted`, `C117_pss`, `C117_pss_in_range`, `C117_pss_standard_refuted`, `C117_sss_refuted`, `C117_pss_section_refuted`, `C117_sync_mask`, `C117_few_blocks_refuted`, `C117_layout`, `C117_counts`, `C117_symbols`, `C117_first_word`, `C117_pss_transmitted_refuted`, `C117_slots`, `C117_slots_refuted`, `C117_duration_refuted`, `C117_reload`, `C117_reload_refuted`, `C117_reload_link`, `C117_reload_ports_refuted`
* `C119_registered`, `C119_stage_names`, `C119_seeds`, `C119_seeds_refuted`, `C119_pages`, `C119_page_size`, `C119_saved_points`, `C119_saved_results`, `C119_saved_others`, `C119_saved_refuted`
* `C120_fresh`, `C120_index`, `C120_found`, `C120_distinct`, `C120_concurrent`, `C120_concurrent_refuted`, `C120_sorted`, `C120_sorted_refuted`, `C120_overwrite`, `C120_accepted`, `C120_directories_only`, `C120_style`, `C120_style_default`, `C120_plots`, `C120_plots_refuted`, `C120_verbosity`, `C120_verbosity_refuted`, `C120_verbosity_case`, `C120_verbosity_order`, `C120_exceptions`
* `C122_bytes`, `C122_stream`, `C122_end_of_file_refuted`, `C122_reloaded`, `C122_stub`, `C122_scapy`, `C122_scapy_small`, `C122_scapy_fields_refuted`, `C122_scapy_layers_refuted`, `C122_scapy_padding_refuted`, `C122_scapy_evaluation_refuted`
* `C125_elements_are_checked`
* `C126_half_the_band`
* `C128_slots`, `C128_slot_order`, `C128_constructor`, `C128_unsupported`, `C128_samples_needed`, `C128_signals_are_transmitted`
* `C131_grid`, `C131_figures_are_apart`, `C131_offsets_refuted`
* `C132_jobs`, `C132_names_refuted`
* `C134_drops`, `C134_drops_succeed`, `C134_failed_transmissions`, `C134_failed_receptions`, `C134_numbers_of_signals_refuted`, `C134_numbers_of_states_refuted`, `C134_direct_numbers`, `C134_usrp_direct`, `C134_audio_direct`, `C134_audio_refused`, `C134_usrp_constructor_refuted`, `C134_usrp_devices`, `C134_usrp_names_refuted`, `C134_usrp_modes`

### `ClassicalDedekindReals.sig_forall_dec`

36 theorems:

* `C22_invalid_configurations_are_rejected`
* `C24_decoded_block_count_refuted`
* `C78_perfect_isolation_leaks_nothing`, `C78_selective_streams_refuted`
* `C84_split`
* `C86_pick_inverts_place`, `C86_wrong_number_of_symbols`, `C86_wrong_number_of_symbols_refuted`, `C86_pilot_symbols_are_periodic`, `C86_pilot_sequence_kept_refuted`
* `C99_devices`, `C99_states`, `C99_mixed`, `C99_keywords_refuted`, `C99_state_time_refuted`, `C99_reciprocal_states`, `C99_reciprocal_time_refuted`
* `C102_weights_scale_ports`
* `C107_duplex_extraction_refuted`, `C107_papr_early`, `C107_papr_early_refuted`, `C107_array`, `C107_array_sparse`
* `C119_drop`, `C119_reexecution`, `C119_propagation`, `C119_processing`, `C119_reception`, `C119_generation`, `C119_unchanged`, `C119_noise_refuted`
* `C125_elements_are_repeated`, `C125_every_other_subcarrier`
* `C127_late_taps_are_ignored`
* `C136_sizes`, `C136_streams`

### `ClassicalDedekindReals.sig_forall_dec`, `FunctionalExtensionality.functional_extensionality_dep`

180 theorems:

* `C09_settings_are_validated`
* `C21_alamouti_recovers_the_symbols`, `C21_invalid_configurations_are_rejected`
* `C22_ganesan_recovers_the_symbols`, `C22_ganesan_over_any_distinguishing_channel`
* `C23_mrc_returns_the_symbols`, `C23_mrc_requires_one_transmit_stream`, `C23_mrc_then_zero_forcing`, `C23_mrc_then_zero_forcing_refuted`
* `C32_error_half_step`, `C32_step`, `C32_clipping`, `C32_idempotent`
* `C33_monotone`, `C33_mid_riser_levels`, `C33_mid_tread_levels`, `C33_mid_tread_resolution_refuted`, `C33_odd`, `C33_thresholds`
* `C34_parameters_positive`
* `C36_cube_creation`, `C36_cube_mismatch`, `C36_peaks_keep_the_strongest`, `C36_threshold_monotone`, `C36_normalised_detection_ignores_gain`, `C36_flat_cubes_find_nothing`, `C36_normalised_cube`
* `C51_zero_forcing_inverts_the_channel`, `C51_zero_forcing_on_one_antenna`
* `C61_group`, `C61_positions`, `C61_plane_refuted`
* `C65_topology_is_relative`
* `C66_antennas_are_counted`, `C66_antennas_are_counted_refuted`
* `C71_delay_propagation_is_linear_and_causal`, `C71_delays_are_kept`
* `C72_delay_propagation_is_blockwise`, `C72_single_block`, `C72_zero_scale`, `C72_blockwise_without_gaps_refuted`
* `C73_linear_frequency`, `C73_linear_several_transmitters_refuted`, `C73_delay_channels_are_reciprocal`
* `C77_offsets`, `C77_rejected_offsets`, `C77_offset_at_the_original_rate`
* `C78_requests_are_checked`
* `C81_reception`, `C81_continuous_reception`, `C81_leakage_is_added`, `C81_signals_with_a_gap_raise`, `C81_reception_refuted`, `C81_nothing_impinging`
* `C82_parameters`, `C82_custom_lengths_refuted`
* `C83_mixer_up`, `C83_mixer_down`, `C83_ideal_mixer`, `C83_ideal_up_down`, `C83_ideal_down_up`, `C83_ideal_mirror_refuted`, `C83_x4`
* `C84_sum`, `C84_sum_frequencies_refuted`, `C84_split_copies_refuted`
* `C85_levels`, `C85_snr`
* `C87_loopback_response`, `C87_loopback_recovers_symbols_iff_nyquist`, `C87_rectangular_pulses_are_recovered`, `C87_samples_per_frame`, `C87_frame_duration`, `C87_pilot_signal_starts_frames`
* `C88_estimates_at_references`, `C88_linear_channels_are_estimated`, `C88_estimates_need_references`, `C88_flat_channels_are_equalized`
* `C89_frame_duration`
* `C90_settings_are_checked`
* `C92_range_label`, `C92_range_label_refuted`, `C92_advertised_range`, `C92_parameters`
* `C96_accepted_configurations`, `C96_fixed_cross_sections`
* `C98_values`, `C98_curve`, `C98_shape`, `C98_dominance`, `C98_invariance`, `C98_separation`, `C98_separation_refuted`, `C98_scenarios`, `C98_files`, `C98_replayed_scenarios_refuted`, `C98_plot_refuted`
* `C99_notified`, `C99_late_hooks_refuted`, `C99_realization`, `C99_gain`, `C99_propagated`, `C99_relabelled_refuted`, `C99_propagate`
* `C102_received_delays_are_removed`, `C102_transmissions_are_postponed`, `C102_other_directions`, `C102_small_delays_refuted`, `C102_estimates_are_exact`, `C102_turned_pulses_refuted`, `C102_stronger_ports_refuted`, `C102_repeated_triggers_refuted`
* `C103_leakage_is_removed`, `C103_other_signals`, `C103_further_transmitters_refuted`, `C103_unknown_transmitters_refuted`, `C103_late_leakage_refuted`, `C103_early_leakage_refuted`
* `C104_profiles_checked`
* `C105_delay_snr`, `C105_delay_snr_refuted`, `C105_comm_levels`, `C105_comm_refused`
* `C106_constants`, `C106_flicker_filter`
* `C107_papr`, `C107_papr_bounds`, `C107_papr_scaling`, `C107_papr_padding`, `C107_papr_silent`, `C107_papr_no_samples`
* `C112_scale`
* `C115_interference`, `C115_interference_refuted`
* `C118_estimated`, `C118_references`, `C118_linear`, `C118_streams`, `C118_one_word_refuted`, `C118_pilot_sections_refuted`
* `C119_announced`, `C119_no_devices`, `C119_interval`, `C119_timestamps`, `C119_trajectories_refuted`
* `C123_setting`
* `C126_delay`
* `C127_single_carrier_static`, `C127_flat_rectangular`, `C127_first_symbol_refuted`
* `C128_longest_frame`, `C128_silent_transmitters_refuted`, `C128_silence`, `C128_negative_silence_refuted`, `C128_signal_frames`, `C128_replaced_signals_refuted`, `C128_receivers_are_checked`, `C128_time_offsets`, `C128_without_devices`, `C128_random_triggers`, `C128_random_triggers_need_one_rate`
* `C129_decimation`, `C129_range_bins`, `C129_default_ranges_refuted`, `C129_doppler_bins`, `C129_odd_chirps_refuted`, `C129_range_resolution`, `C129_ping`
* `C136_settings`, `C136_realizations`, `C136_offsets`, `C136_superposition`, `C136_both_directions`
* `C137_zero_forcing`, `C137_least_squares`, `C137_single_stream`, `C137_single_stream_refuted`, `C137_mmse_raises`, `C137_mmse_is_zero_forcing`, `C137_mmse`

### `ClassicalDedekindReals.sig_forall_dec`, `ClassicalDedekindReals.sig_not_dec`, `FunctionalExtensionality.functional_extensionality_dep`

342 theorems:

* `C09_estimates_are_section_means`, `C09_section_stops_iff_some_evaluator_is_confident`, `C09_no_stop_before_the_minimum`, `C09_zero_tolerance_never_stops`, `C09_constant_samples_never_stop`, `C09_all_evaluators_confident_refuted`
* `C14_supported_orders`, `C14_whole_symbols_are_mapped`, `C14_hard_detection_finds_nearest_symbols`, `C14_labels_are_distinct`, `C14_custom_labels_are_distinct`, `C14_detection_inverts_mapping`, `C14_detection_tolerates_noise`, `C14_single_points_carry_no_bits`
* `C15_neighbours_differ_in_one_bit`
* `C16_soft_outputs_are_max_log`, `C16_hard_decisions_are_signs`, `C16_tables_have_no_soft_outputs`
* `C19_ofdm_demodulation_inverts_modulation`, `C19_offset_rotates_phases`, `C19_sample_offset_inside_the_prefix`, `C19_offset_with_dc_suppression`, `C19_offset_with_dc_suppression_refuted`, `C19_offset_of_a_later_section_refuted`
* `C20_otfs_backward_inverts_forward`, `C20_ocdm_backward_inverts_forward`, `C20_otfs_demodulation_inverts_modulation`, `C20_ocdm_demodulation_inverts_modulation`, `C20_dft_precoding_is_invertible`
* `C24_dft_and_alamouti_over_a_channel`, `C24_unchecked_stream_count_refuted`
* `C34_peak_amplitude`, `C34_within_full_scale`, `C34_zero_signal`, `C34_empty_signal_raises`, `C34_transparent`, `C34_conversion_error`, `C34_rms_single_stream`, `C34_rms_several_streams_refuted`
* `C36_point_geometry`, `C36_threshold_detector`, `C36_negative_cells_refuted`, `C36_max_detector`, `C36_max_detector_position_refuted`, `C36_max_detector_agrees_for_equal_angles`
* `C52_the_strongest_antenna_is_selected`, `C52_zero_forcing_after_selection`, `C52_more_than_two_transmit_streams_raise`
* `C55_evm_is_root_mean_square`, `C55_evm_zero_iff`, `C55_evm_symmetric`, `C55_evm_scales`, `C55_missing_symbols_ignored`
* `C56_frames_are_converted_independently`, `C56_single_frame`, `C56_incomplete_frame_raises`
* `C58_mapping_is_listed_by_label`, `C58_unit_mean_energy`, `C58_custom_points_are_scaled`
* `C61_rigid`, `C61_isometry`, `C61_directions`
* `C62_quaternion_scaling`, `C62_quaternion_reading_refuted`
* `C63_lookat`, `C63_lookat_upwards_refuted`
* `C65_phases_follow_the_distances`, `C65_position_frames_agree`, `C65_responses_have_unit_modulus`, `C65_horizontal_is_spherical`
* `C66_history_of_a_uniform_array`
* `C70_ideal_state_describes_propagation`, `C70_delay_state_describes_propagation`, `C70_fading_state_describes_propagation`, `C70_fading_state_is_truncated`, `C70_states_can_be_requested_refuted`, `C70_states_count_receiving_antennas_refuted`
* `C71_ideal_propagation_is_linear_and_causal`, `C71_fading_propagation_is_linear_and_causal`, `C71_state_propagation_is_linear_and_causal`
* `C72_ideal_propagation_is_blockwise`, `C72_fading_propagation_is_blockwise`, `C72_blockwise_in_motion_refuted`
* `C73_impulse_round_trip`, `C73_frequency_round_trip`, `C73_conversions_keep_all_samples_refuted`, `C73_linear_is_propagation`, `C73_ideal_channels_are_reciprocal`, `C73_fading_channels_are_reciprocal`, `C73_states_are_reciprocal`
* `C74_ideal_propagation_keeps_its_argument`, `C74_lossless_propagation_keeps_its_argument`, `C74_propagation_is_repeatable_refuted`, `C74_rice_gains`, `C74_infinite_rice_factor`, `C74_peak_amplitude`
* `C76_propagation_over_ideal_channels_refuted`
* `C78_specific_isolation`, `C78_isolation_is_a_power_ratio`, `C78_not_positive_isolations`, `C78_unspecified_isolation`, `C78_invalid_isolations`, `C78_cleared_isolations_stop_leaking_refuted`, `C78_selective_leakage`
* `C79_transmitted_streams`, `C79_default_transmission_of_one_antenna`, `C79_default_transmission_refuted`, `C79_default_reception`, `C79_receive_impedance_scales`
* `C80_emerging_superposition`, `C80_transmissions_kept`, `C80_transmissions_unchanged_refuted`, `C80_separate_operators`, `C80_numbers_checked`, `C80_separate_operators_must_transmit`, `C80_first_selection_is_ignored`, `C80_selected_ports_need_streams`, `C80_selected_ports`, `C80_selected_streams`, `C80_port_selection_refuted`, `C80_excess_streams_are_dropped`
* `C83_up_down`, `C83_attribute_refuted`
* `C84_shift`, `C84_shift_quantization_refuted`, `C84_source`, `C84_ramp`, `C84_falling_ramp_silent`, `C84_falling_ramp_refuted`
* `C85_noise`, `C85_noise_cancels`, `C85_negative_power`, `C85_noise_power_refuted`, `C85_ports`
* `C87_fmcw_pulses_are_recovered`, `C87_raised_cosine_pulses_are_recovered`, `C87_raised_cosine_vanishes_at_other_symbols`, `C87_odd_filter_lengths_refuted`, `C87_fmcw_samples_per_frame`, `C87_frame_duration_refuted`, `C87_pilot_signal_starts_frames_refuted`
* `C89_frames_are_sequences_of_chirps`, `C89_silent_guard_refuted`, `C89_detection_tolerates_noise`, `C89_recovery_iff_distinct_chirps`, `C89_default_chirps_are_distinct`, `C89_chirps_are_distinct`, `C89_chirps_are_distinct_refuted`
* `C90_frames_within_the_signal`, `C90_short_signal`, `C90_frames_do_not_overlap`, `C90_exactly_the_correlated_frames`, `C90_isolated_pilot`, `C90_gain_does_not_matter`, `C90_errors`, `C90_settings_have_no_effect`, `C90_settings_refuted`, `C90_first_sample_refuted`, `C90_short_signal_refuted`
* `C91_strongest_cell_of_an_echo`, `C91_single_antenna`, `C91_silence`, `C91_range_axis`, `C91_velocity_axis`, `C91_latest_transmission`, `C91_several_transmit_antennas`, `C91_minimum_range_refuted`, `C91_velocity_axis_refuted`, `C91_several_transmit_antennas_refuted`
* `C92_energy`, `C92_frame`, `C92_frame_refuted`, `C92_overlong_chirps_refuted`, `C92_moving_scene`, `C92_static_scene`, `C92_range_cell`, `C92_velocity_resolution_refuted`, `C92_single_antenna`, `C92_minimum_range`
* `C93_strongest_cell`, `C93_static_objects_refuted`, `C93_minimum_range_refuted`, `C93_delayed_words_are_echoes`
* `C94_delays`, `C94_line_of_sight_is_first`, `C94_coinciding_ends`, `C94_monostatic`, `C94_velocities_are_bounded`, `C94_reciprocity`
* `C96_single_target`, `C96_velocity_vectors`, `C96_missing_targets`, `C96_range_from_the_receiver_refuted`, `C96_zero_range`, `C96_targets`, `C96_collisions`, `C96_collision_check_refuted`, `C96_cross_section_directions_refuted`
* `C98_rms`, `C98_rms_scalar`, `C98_rms_perfect_detection_refuted`, `C98_rms_displaced_refuted`
* `C102_transmit_phases_are_aligned`, `C102_receive_phases_are_aligned`, `C102_inverted_references_refuted`
* `C103_estimates_are_exact`, `C103_calibrated_devices_hear_only_the_rest`, `C103_refused_estimates`, `C103_selected_ports_refuted`, `C103_selected_receiver_refuted`
* `C104_taps`, `C104_los_angle_refuted`, `C104_sinusoids_refuted`, `C104_correlation_refuted`, `C104_antennas_refuted`
* `C105_noise_power`, `C105_sparse`, `C105_several_blocks_refuted`, `C105_receivers_share`, `C105_independent_refuted`, `C105_decoded`, `C105_reported_power_refuted`, `C105_ideal_snr`, `C105_ideal_streams_refuted`, `C105_fading_energy`, `C105_oversampling`, `C105_es_n0_refuted`
* `C106_magnitudes`, `C106_silent`, `C106_variance`, `C106_stationary_refuted`
* `C107_latest`, `C107_dense_power`, `C107_no_samples`, `C107_sparse_energy`, `C107_energy_refuted`, `C107_sparse_power`, `C107_sparse_power_equal_blocks`, `C107_sparse_power_refuted`, `C107_representation_refuted`
* `C113_multipath`, `C113_averaged`, `C113_estimate`, `C113_explained`, `C113_equalized`, `C113_synchronised_refuted`, `C113_longest_prefix_refuted`, `C113_short_prefix_refuted`, `C113_time_varying_refuted`, `C113_pilot_sections_refuted`, `C113_antennas`
* `C115_codebook`, `C115_first_row`, `C115_first_row_refuted`, `C115_pole_repeated`
* `C118_flat`, `C118_recovered`
* `C121_quadriga_propagation`, `C121_quadriga_streams_refuted`, `C121_quadriga_state`, `C121_quadriga_state_refuted`, `C121_sionna_propagation`, `C121_sionna_state`, `C121_no_path`, `C121_sionna_invalid_refuted`, `C121_sionna_rate_refuted`, `C121_energy_refuted`, `C121_energy_scale_of_a_path`
* `C123_spatial_delay`, `C123_spatial_triangle`, `C123_path_gain`, `C123_inverse_square`, `C123_gain_refuted`, `C123_close_refuted`, `C123_random_loss_refuted`
* `C124_same_rate`, `C124_samples_kept`, `C124_blocks_kept`, `C124_linear`, `C124_times`, `C124_overlap`, `C124_overlap_refuted`, `C124_empty_refuted`, `C124_count_refuted`, `C124_short`, `C124_flag_refuted`, `C124_mix_bands`, `C124_mix_wide_refuted`, `C124_mix_tone`, `C124_mix_phase_refuted`, `C124_mix_offset_refuted`, `C124_delay_matrix`
* `C125_pilots_are_fresh`, `C125_new_elements`, `C125_constructor_refuted`, `C125_without_waveform`, `C125_stale_pilots_refuted`, `C125_removed_elements_refuted`, `C125_halves_repeat`, `C125_suppressed_halves_refuted`, `C125_within_the_signal`, `C125_errors`, `C125_repeating_symbol_found`, `C125_last_symbol_refuted`, `C125_single_symbol_refuted`, `C125_pilot_found`, `C125_frequency_offset`, `C125_gain`
* `C126_loopback`, `C126_spectrum`, `C126_errors`, `C126_silence`, `C126_delayed_loopback_refuted`, `C126_uploaded`, `C126_uploaded_streams_refuted`, `C126_empty_recordings`
* `C127_newest_sample`, `C127_fmcw_refuted`, `C127_ofdm_static`, `C127_ofdm_equalized`, `C127_ofdm_flat`
* `C129_echo_peak`, `C129_mirrored_echo`, `C129_reception`, `C129_slow_reception`, `C129_streams`
* `C130_traced_propagation`, `C130_traced_state`, `C130_traced_taps_refuted`, `C130_no_paths`, `C130_traced_energy_refuted`, `C130_quadriga_propagation`, `C130_quadriga_state`, `C130_quadriga_antennas`, `C130_quadriga_mixed_up_refuted`, `C130_lost_signals_refuted`
* `C133_magnitudes`, `C133_phases_of_first_parts`, `C133_equal_signs_refuted`, `C133_positive_angles_refuted`, `C133_quarter_turn`, `C133_ports`

### `ClassicalDedekindReals.sig_forall_dec`, `ClassicalDedekindReals.sig_not_dec`, `Classical_Prop.classic`, `FunctionalExtensionality.functional_extensionality_dep`

183 theorems:

* `C35_conversion_round_trip`, `C35_power_and_amplitude`, `C35_monotone`, `C35_creation`, `C35_sums`, `C35_products`, `C35_pickling`
* `C37_decision`, `C37_decision_depends_on_training_cells`, `C37_decision_ignores_gain`, `C37_false_alarms_monotone`, `C37_flat_cubes_find_nothing`, `C37_detector`
* `C57_power_sequences`, `C57_power_sequence_decibels`, `C57_amplitude_sequences_report_half`, `C57_amplitude_sequences_refuted`, `C57_derived_sequences`, `C57_assignment`, `C57_not_positive_unreadable`, `C57_in_place_arithmetic_refuted`, `C57_pickling_powers`
* `C62_angles_describe_the_rotation`, `C62_angles_are_read_back`, `C62_gimbal_lock_refuted`
* `C63_spherical_coordinates`
* `C64_field_turns_with_the_antenna`, `C64_power_is_kept`, `C64_ideal_and_linear_radiate_everywhere`, `C64_power_is_bounded`, `C64_direction_frames_agree`, `C64_location_and_direction_agree`, `C64_location_frames_agree_if_not_turned`, `C64_location_frames_agree_refuted`
* `C65_far_field`
* `C67_conventional_receives_the_focus`, `C67_conventional_receives_scene_angles`, `C67_conventional_amplifies_no_direction`, `C67_conventional_transmits_towards_the_focus`, `C67_conventional_receives_the_focus_refuted`, `C67_wrong_requests_are_refused`
* `C68_capon_minimises_power`, `C68_capon_is_distortionless`, `C68_wrong_requests_are_refused`
* `C69_null_steering_transmits_nothing_to_the_nulls`, `C69_null_steering_receives_nothing_from_the_nulls`, `C69_null_steering_needs_receiving_antennas`, `C69_null_steering_serves_the_focus_refuted`, `C69_wrong_requests_are_refused`
* `C82_ports`, `C82_linear`, `C82_clipping`, `C82_rapp`, `C82_saleh`, `C82_saleh_monotone_refuted`, `C82_saleh_finite_refuted`, `C82_custom`, `C82_custom_mismatch_raises`, `C82_rotation`, `C82_memory_polynomial_refuted`
* `C87_raised_cosine_pulses_are_recovered_refuted`, `C87_root_raised_cosine_refuted`
* `C94_target_velocity`, `C94_interference_velocity`, `C94_doppler_convention_refuted`, `C94_responses_are_reciprocal`, `C94_radar_equation`, `C94_free_space`, `C94_own_echo`
* `C95_superposition`, `C95_no_paths`, `C95_ordinary_velocities`, `C95_short_outputs_refuted`, `C95_linearity`, `C95_order_is_irrelevant`, `C95_states`, `C95_states_describe_propagation`, `C95_null_hypothesis`, `C95_later_null_hypothesis_refuted`, `C95_interference_shapes`, `C95_interference_refuted`
* `C97_reading`, `C97_late_variables`, `C97_static`, `C97_bounded`, `C97_consistency`, `C97_reciprocity_refuted`, `C97_zero_distance`, `C97_radial_velocities`, `C97_negative_distance`
* `C104_exponential`, `C104_exponential_spread_refuted`, `C104_exponential_power_refuted`, `C104_tables`, `C104_tdl`, `C104_line_of_sight_refuted`, `C104_standard_covariances`
* `C109_same_place`, `C109_offset`, `C109_clusters`, `C109_delay_values`, `C109_delays`, `C109_negative_delays_refuted`, `C109_delay_scale_refuted`, `C109_power_values`, `C109_energy`, `C109_decay`, `C109_cutoff`, `C109_cutoff_refuted`, `C109_pairing`, `C109_pairing_refuted`, `C109_gain_refuted`, `C109_oxygen_refuted`, `C109_shadow_fading_refuted`, `C109_angular_spread`, `C109_angular_invariance`, `C109_profile_refuted`, `C109_cross_polarization_refuted`
* `C110_superposition`, `C110_linearity`, `C110_rays_refuted`, `C110_energy_refuted`, `C110_rice_factor`, `C110_few_rays_refuted`, `C110_interpolation_refuted`, `C110_state`, `C110_attenuation`, `C110_attenuation_refuted`, `C110_los_polarization_refuted`, `C110_doppler`, `C110_los_phase`, `C110_los_doppler_refuted`, `C110_blocks_refuted`, `C110_moving_transmitter_refuted`, `C110_reciprocity`, `C110_reciprocity_refuted`, `C110_directions_refuted`
* `C111_defined`, `C111_identical_positions`, `C111_carrier_refuted`, `C111_reciprocal`, `C111_nlos`, `C111_attenuates`, `C111_gain_refuted`, `C111_increasing`, `C111_decades`, `C111_breakpoint`, `C111_breakpoint_refuted`, `C111_rural_refuted`, `C111_indoor_refuted`, `C111_certain`, `C111_possible`, `C111_nested`, `C111_open_office_refuted`, `C111_macro_refuted`, `C111_mast_refuted`, `C111_factory`, `C111_factory_refuted`
* `C112_centres`, `C112_first_cluster`, `C112_strongest_cluster`, `C112_independent_refuted`, `C112_weaker`, `C112_rice_refuted`, `C112_spreads`, `C112_frames`, `C112_frames_refuted`, `C112_wrap_refuted`
* `C115_latest`, `C115_pattern`, `C115_bound`, `C115_scale`, `C115_receive_mirrored`, `C115_receive_refuted`
* `C123_random_delay`, `C123_reciprocity_refuted`, `C123_decorrelation_refuted`
* `C135_angles`, `C135_receives_the_device`, `C135_transmits_to_the_device`, `C135_equivalent_focus_refuted`, `C135_capon_turned`, `C135_streams`
