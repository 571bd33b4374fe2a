{"id": "C01", "title": "A stack of FEC encoders is undone by decoding", "statement": "EncoderManager.decode(EncoderManager.encode(d), len(d)) returns exactly d for every registered stack of encoders that each invert their own blocks, provided the code block size of every encoder divides the data block size of the next one (or decode raises an explicit error); it never returns wrong bits. For block sizes that do not divide each other the call can fail although encoding succeeded.", "quantifier": "all lists of encoders with arbitrary block sizes, all enabled/disabled patterns, all data bit sequences, all random padding bits", "why_tests_cant": "stack depth, block sizes, data length and padding bits are unbounded and interact through floor/ceil divisions; unit tests use one or two fixed codes", "anchors": ["hermespy/fec/coding.py:EncoderManager.encode", "hermespy/fec/coding.py:EncoderManager.decode", "hermespy/fec/coding.py:EncoderManager.add_encoder"]}
{"id": "C02", "title": "Encoding honours the requested code length", "statement": "EncoderManager.encode(d, n) either raises or returns exactly n bits whose prefix is the code of d; it never silently truncates a code word, and it adds fewer padding bits than one code block.", "quantifier": "all encoder stacks, data sequences, requested lengths and padding bits", "why_tests_cant": "length arithmetic must be right for every combination of data length, block size and requested length", "anchors": ["hermespy/fec/coding.py:EncoderManager.encode", "hermespy/fec/coding.py:EncoderManager.code_block_size"]}
{"id": "C03", "title": "Repetition coding corrects every minority error pattern", "statement": "With an odd number r of repetitions RepetitionEncoder.decode returns the transmitted block for every received word in which each bit was flipped in at most (r-1)/2 of its repetitions, and the bound is tight: one more error on any bit makes it wrong.", "quantifier": "all block sizes, all odd repetition counts, all data, all error patterns", "why_tests_cant": "the number of error patterns is exponential in block size times repetitions", "anchors": ["hermespy/fec/repetition_encoder.py:RepetitionEncoder.encode", "hermespy/fec/repetition_encoder.py:RepetitionEncoder.decode"]}
{"id": "C04", "title": "Block interleaving is a lossless permutation", "statement": "For every interleaver accepted by the constructor, decode(encode(b)) = b and encode(decode(c)) = c, encode outputs a permutation of its input, and output bit i*M'+j is input bit j*N'+i for the row/column dimensions in use, so adjacent bits are separated by a full row.", "quantifier": "all block sizes, all dividing interleave block counts, all bit blocks", "why_tests_cant": "infinitely many (K, M) shapes; tests pick one", "anchors": ["hermespy/fec/block_interleaver.py:BlockInterleaver.encode", "hermespy/fec/block_interleaver.py:BlockInterleaver.decode"]}
{"id": "C05", "title": "CRC stage removes exactly what it added", "statement": "For every check block size of at least one and every data block and check bits, decode(encode(b)) = b and the encoded length is bit_block_size + check_block_size. For check block size zero, which the setter accepts, decode returns an empty block.", "quantifier": "all block sizes, check sizes, data blocks and check-bit values", "why_tests_cant": "slice boundary behaviour must hold for every size; the zero boundary is the failing one", "anchors": ["hermespy/fec/cyclic_redundancy_check.py:CyclicRedundancyCheck.encode", "hermespy/fec/cyclic_redundancy_check.py:CyclicRedundancyCheck.decode"]}
{"id": "C06", "title": "3GPP scrambling is transparent end to end over any history", "statement": "After any common history of blocks, the receive side of Scrambler3GPP returns exactly the bits handed to the transmit side, for every seed and block size; scrambling is a length-preserving bijection at any state.", "quantifier": "all seeds, all sequences of blocks, all block contents", "why_tests_cant": "depends on generator state reached after arbitrary histories", "anchors": ["hermespy/fec/scrambler.py:Scrambler3GPP", "hermespy/fec/scrambler.py:PseudoRandomGenerator"]}
{"id": "C07", "title": "802.11a scrambling needs equal register states", "statement": "Two 802.11a scramblers whose registers are equal undo each other's work for every sequence of blocks; one single object does not decode its own code words, because encoding advances the register the decoder uses.", "quantifier": "all register states, all sequences of blocks", "why_tests_cant": "depends on histories of calls, not on one call", "anchors": ["hermespy/fec/scrambler.py:Scrambler80211a.encode", "hermespy/fec/scrambler.py:Scrambler80211a.decode"]}
{"id": "C08", "title": "Monte Carlo queue hands out every grid section the right number of times", "statement": "For every grid, batch size and interleaving of next_batch and disable_section calls, every emitted sample carries an index inside the grid, no section is emitted more often than num_samples, no section is emitted after it was disabled, and once the queue is exhausted every section that was never disabled was emitted exactly num_samples times.", "quantifier": "all grid shapes, batch sizes, sample counts and all interleavings of actor and collector calls", "why_tests_cant": "schedules of concurrent actors are unbounded", "anchors": ["hermespy/core/pymonte/actors.py:MonteCarloQueueManager.next_batch", "hermespy/core/pymonte/actors.py:MonteCarloQueueManager.disable_section"]}
{"id": "C09", "title": "Estimates are section means and early stopping follows the documented rule", "statement": "For every sequence of collected samples, the estimate reported for a grid section is the arithmetic mean of exactly the scalars collected in that section. A section is stopped early exactly when, for at least one evaluator, the number of its scalars is a multiple of the required minimum, their sample variance is positive and the normal error probability lies below the evaluator's threshold; hence never before the minimum number of samples, never with zero tolerance (the default) and never for constant samples. It is not required that all evaluators are confident: one is enough, so other evaluators may end up with fewer samples than they need.", "quantifier": "all sample histories, sections, evaluator lists, tolerances and thresholds", "why_tests_cant": "the decision depends on unbounded histories of results", "anchors": ["hermespy/core/pymonte/actors.py:MonteCarloCollector", "hermespy/core/pymonte/scalar.py:ScalarEvaluationResult.add_artifact", "hermespy/core/pymonte/scalar.py:ScalarEvaluationResult.to_array"]}
{"id": "C10", "title": "Skipping unaffected simulation stages does not change results", "statement": "For every sequence of grid sections a Monte Carlo actor processes, the data it evaluates equals what running all stages from scratch for each section would produce, provided each grid dimension only influences stages inside its declared impact range.", "quantifier": "all numbers of stages, all grid dimensions, all impact annotations and all section sequences", "why_tests_cant": "correctness of stage caching depends on the whole history of sections an actor processed", "anchors": ["hermespy/core/pymonte/actors.py:MonteCarloActor", "hermespy/core/pymonte/grid.py:GridDimension"]}
{"id": "C11", "title": "Samples are attributed to the grid point they were simulated at", "statement": "The parameters active while a sample is simulated are those of the grid section the sample is stored under. This holds when dimensions are registered in the order of their first impact; the simulation sorts dimensions for actors but not for the queue and collector, so otherwise samples are attributed to the wrong grid point or indexing fails.", "quantifier": "all grids, all dimension orders, all sections", "why_tests_cant": "needs a statement over all dimension permutations; tests use grids of one dimension", "anchors": ["hermespy/core/pymonte/monte_carlo.py:MonteCarlo.simulate", "hermespy/core/pymonte/actors.py:MonteCarloActor"]}
{"id": "C12", "title": "Acyclic object graphs survive serialization", "statement": "Saving any acyclic object graph with Factory.to_HDF and loading it with from_HDF yields the same graph up to addresses: the same classes, numbers, strings, arrays and sequences, and two references (or cached arrays) are shared after loading exactly if they were the same before saving. This needs classes that read their fields in the order in which they write them, array identifiers that denote one array each, and no field of the saved object named arrays, version or timestamp. Graphs with cycles are saved but can never be loaded, other reading orders duplicate shared objects, and reused identifiers of temporary arrays store the wrong contents.", "quantifier": "all class registries, all finite acyclic object graphs of any size and sharing pattern", "why_tests_cant": "graphs are unbounded and aliasing patterns are exponential", "anchors": ["hermespy/core/factory.py:HDFSerializationProcess", "hermespy/core/factory.py:HDFDeserializationProcess", "hermespy/core/factory.py:Factory.to_HDF"]}
{"id": "C13", "title": "Values survive serialization, fields are independent, missing fields yield the default", "statement": "After any history of writes to a process, a number or string is read back as it was last written under its name, and an array as it was first written under its name, whatever is written under other names or as nested objects. Reading with another type raises a RuntimeError; reading a name never written yields the supplied default or a RuntimeError (without default, strings read as the text None). The names arrays, version and timestamp of the base group are taken.", "quantifier": "all field names, values and histories of writes including nested objects and sequences", "why_tests_cant": "frame condition over all pairs of fields and all histories", "anchors": ["hermespy/core/factory.py:HDFSerializationProcess.serialize_integer", "hermespy/core/factory.py:HDFSerializationProcess.serialize_array", "hermespy/core/factory.py:HDFDeserializationProcess.deserialize_integer"]}
{"id": "C14", "title": "Hard demapping inverts symbol mapping", "statement": "Without a custom mapping, mappers exist exactly for orders 2, 4, 8, 16, 64, 256 (complex) and 2, 4, 8, 16 (real). Bit sequences of a whole number of symbols are mapped and all others rejected with a ValueError. Hard detection returns, for every received value, the label of the nearest symbol whenever there is only one. Different labels have different symbols (custom mappings: exactly if no point is repeated), so detection of mapped symbols returns the bits, also under noise smaller than half the smallest symbol distance. Single-point custom mappings can be created, but mapping raises a ZeroDivisionError.", "quantifier": "all mappers, bit sequences of any length, all received complex values and positive noise variances", "why_tests_cant": "sequence length is unbounded and received values are a continuum", "anchors": ["hermespy/modem/tools/psk_qam_mapping.py:PskQamMapping.__init__", "hermespy/modem/tools/psk_qam_mapping.py:PskQamMapping.get_symbols", "hermespy/modem/tools/psk_qam_mapping.py:PskQamMapping.detect_bits"]}
{"id": "C15", "title": "Adjacent constellation points differ in one bit", "statement": "In every built-in constellation (8-PSK included), two symbols at the smallest distance carry labels that differ in exactly one bit, so a nearest-neighbour symbol error is a single bit error; this smallest distance is positive and occurs.", "quantifier": "all built-in constellations, all pairs of labels", "why_tests_cant": "must hold for all pairs of all constellations over exact irrational coordinates", "anchors": ["hermespy/modem/tools/psk_qam_mapping.py:PskQamMapping.get_symbols", "hermespy/modem/tools/psk_qam_mapping.py:PskQamMapping.generate_pam_symbol_3gpp"]}
{"id": "C16", "title": "Soft and hard decisions agree", "statement": "For every received value and noise variance, the soft output of every bit equals a positive constant (1 for most orders, 1/2 for BPSK and QPSK) times the difference of the squared distances to the nearest symbols with this bit zero and one, divided by the variance; hard decisions are the signs of the soft outputs; 8-PSK and custom constellations raise a RuntimeError when soft outputs are requested.", "quantifier": "all received complex values, noise variances, supported orders", "why_tests_cant": "quantifies over a continuum of received values against piecewise linear formulas with up to fifteen pieces", "anchors": ["hermespy/modem/tools/psk_qam_mapping.py:PskQamMapping.detect_bits", "hermespy/modem/tools/psk_qam_mapping.py:PskQamMapping.get_llr_3gpp"]}
{"id": "C17", "title": "Placing symbols on a resource grid and picking them again is lossless", "statement": "For every grid structure (repeated sections of repeated resource patterns with data, reference and null elements, guard and pilot sections) OrthogonalWaveform.place accepts exactly the advertised number of data symbols, pick after place returns the data symbols in their original order, every grid cell holds what its element type says (data in order, reference symbols at reference positions in the order of the configured pilot sequence, zero elsewhere).", "quantifier": "all resource patterns, repetitions, section structures and symbol vectors", "why_tests_cant": "unbounded structural recursion over user-defined patterns", "anchors": ["hermespy/modem/waveforms/orthogonal/waveform.py:GridResource", "hermespy/modem/waveforms/orthogonal/waveform.py:SymbolSection", "hermespy/modem/waveforms/orthogonal/waveform.py:OrthogonalWaveform.place", "hermespy/modem/waveforms/orthogonal/waveform.py:OrthogonalWaveform.pick"]}
{"id": "C18", "title": "Advertised symbol counts equal actual grid contents", "statement": "num_data_symbols, words_per_frame, num_reference_symbols, num_subcarriers and samples_per_frame reported by an orthogonal waveform equal what the placed grid contains and what modulation emits, for every configuration; cutting a modulated frame into words, prefixes and guards and putting it together is lossless. (Reference symbols of separate pilot sections are not among the advertised references.)", "quantifier": "all grid configurations", "why_tests_cant": "structural induction over arbitrary configurations", "anchors": ["hermespy/modem/waveforms/orthogonal/waveform.py:OrthogonalWaveform", "hermespy/modem/waveforms/orthogonal/waveform.py:GridResource"]}
{"id": "C19", "title": "OFDM modulation followed by demodulation is the identity", "statement": "For every number of subcarriers, oversampling factor, cyclic prefix not longer than a symbol, DC suppression setting, section structure and symbol grid, demodulating the modulated samples returns the grid exactly (in exact arithmetic). A word received early, inside its cyclic prefix, only rotates the phase of each subcarrier; the configured sample offset of the first section carrying words is undone exactly without DC suppression or without oversampling. With both, the last subcarrier keeps a fixed phase error, and an offset configured for a later section is corrected on the words of the first section.", "quantifier": "all transform sizes, oversampling factors, prefix lengths, symbol vectors", "why_tests_cant": "holds for all sizes over an algebraic structure; floating point tests sample a handful", "anchors": ["hermespy/modem/waveforms/orthogonal/ofdm.py:OFDMWaveform", "hermespy/modem/waveforms/orthogonal/waveform.py:OrthogonalWaveform.modulate", "hermespy/modem/waveforms/orthogonal/waveform.py:OrthogonalWaveform.demodulate"]}
{"id": "C20", "title": "OTFS, OCDM and DFT precoding transforms are invertible", "statement": "The forward and backward transformations of OTFS and OCDM waveforms are inverse for every number of subcarriers, oversampling factor and number of words, whole frames of both survive modulation and demodulation, and DFT precoding is invertible in both directions with every normalisation and block size.", "quantifier": "all sizes, all symbol matrices, all normalisations", "why_tests_cant": "algebraic identity for all sizes", "anchors": ["hermespy/modem/waveforms/orthogonal/otfs.py", "hermespy/modem/waveforms/orthogonal/ocdm.py", "hermespy/modem/precoding/dft.py:DFT"]}
{"id": "C21", "title": "Alamouti coding recovers the symbols over every flat channel", "statement": "For every even number of symbols and every non-zero two-antenna channel that is constant over each symbol pair, decoding the superposition of both antennas returns the transmitted symbols; invalid stream counts and odd symbol counts are rejected.", "quantifier": "all symbol sequences of any even length, all channels over the complex numbers", "why_tests_cant": "continuum of channels and symbols", "anchors": ["hermespy/modem/precoding/space_time_block_coding.py:Alamouti"]}
{"id": "C22", "title": "Ganesan coding recovers the symbols over every flat channel", "statement": "For every number of symbol blocks divisible by three and every non-zero four-antenna channel constant over each group of four blocks - and every other channel over which code words can be told apart - decoding the superposition of the four antennas returns the transmitted symbols, for any number of receive antennas; other stream and block counts are rejected.", "quantifier": "all symbol sequences, all channels over the complex numbers", "why_tests_cant": "continuum of channels and symbols; 4x3 sign pattern", "anchors": ["hermespy/modem/precoding/space_time_block_coding.py:Ganesan"]}
{"id": "C23", "title": "Maximum ratio combining returns the transmitted symbol", "statement": "Combining r_i = h_i x over any number of antennas with at least one non-zero coefficient returns x for every x; combining followed by zero-forcing with the states it leaves behind scales the symbol by the inverse channel energy.", "quantifier": "all antenna counts, all channels, all symbols", "why_tests_cant": "continuum of inputs and unbounded antenna number", "anchors": ["hermespy/modem/precoding/ratio_combining.py:MaximumRatioCombining", "hermespy/modem/waveform.py:ZeroForcingChannelEqualization"]}
{"id": "C24", "title": "Precoding chains are undone in reverse order with consistent stream counts", "statement": "Encoding through a chain of precoders and decoding through the matching decoders in reverse order returns the input whenever each decoder undoes its encoder, also with a channel in between; stream and block counts reported by the chain match what encoding produces if its members keep their word. Decoding in the order of the transmit chain does not invert it, symbol chains do not check the number of streams given, and the reported number of decoded blocks divides by the rate instead of multiplying.", "quantifier": "all chains of precoders, all numbers of streams and blocks", "why_tests_cant": "chains of unbounded length", "anchors": ["hermespy/core/precoding.py:Precoding", "hermespy/modem/precoding/symbol_precoding.py:TransmitSymbolCoding", "hermespy/modem/precoding/symbol_precoding.py:ReceiveSymbolCoding"]}
{"id": "C25", "title": "Modem construction keeps the configured coding chains", "statement": "Setting a coder at a position puts it in front of the chain (negative positions), at its end (position equal to the length) or in place of the one there, and fails beyond; removing one returns it and leaves the others in order. A modem built from a list of precoders applies them in reverse order of the list; saving and loading a modem reverses its chains; a modem built from a non-empty coding object never finishes construction; a modem built from a list of encoders keeps exactly those, one built from an encoder manager with n > 0 encoders ends up with 2n + 1.", "quantifier": "all lists of precoders and encoders, all positions", "why_tests_cant": "needs list-length-independent statement; the property is in fact false and the exact resulting chain is characterised", "anchors": ["hermespy/modem/modem.py:TransmittingModemBase.__init__", "hermespy/modem/modem.py:BaseModem.__init__", "hermespy/core/precoding.py:Precoding.__setitem__", "hermespy/core/precoding.py:Precoding.pop_precoder"]}
{"id": "C26", "title": "Frames partition the transmitted bits and the received signal", "statement": "A transmission holds as many whole frames as fit into the requested duration (one if none is requested); the bits of its frames concatenate to the drawn bits; frame k starts at sample k*samples_per_frame; without synchronization sequence every block of a received signal is split into its whole frames, each exactly once, without overlap, reported at its position; frames are zero-padded only past the end of their block; receiving an unchanged transmission, sparse or merged into one block, returns its frames. A frame spread over two adjacent blocks is lost.", "quantifier": "all durations, numbers of frames, frame lengths, signals and synchronization results", "why_tests_cant": "It quantifies over all frame counts, lengths and bit patterns; tests sample a few.", "anchors": ["hermespy/modem/modem.py:TransmittingModemBase._transmit", "hermespy/modem/modem.py:ReceivingModemBase.__synchronize", "hermespy/modem/waveform.py:Synchronization.synchronize"]}
{"id": "C27", "title": "Bit error evaluation counts Hamming distance", "statement": "BitErrorEvaluator reports exactly the fraction of positions in which transmitted and received bits differ, is symmetric, is zero iff equal up to zero padding, and counts bits missing at the receiver as errors only if they are ones.", "quantifier": "all pairs of bit sequences of any lengths", "why_tests_cant": "unbounded sequences and length mismatches", "anchors": ["hermespy/modem/evaluators.py:BitErrorEvaluator"]}
{"id": "C28", "title": "Block error evaluation", "statement": "For frames of whole blocks in which received frames carry as many bits as transmitted ones, the evaluation has one entry per block, set exactly if the blocks differ anywhere or exist on one side only; frames with different numbers of blocks raise a ValueError unless one of them is a single block, which is compared with every block of the other frame, so that blocks never received may count as correct.", "quantifier": "all block lengths, frame lists and bit patterns", "why_tests_cant": "It quantifies over all frame counts, lengths and bit patterns; tests sample a few.", "anchors": ["hermespy/modem/evaluators.py:BlockErrorEvaluator"]}
{"id": "C29", "title": "Frame error evaluation and throughput", "statement": "A frame counts as erroneous iff any bit differs, if it is missing on either side, or if the lengths differ and neither is one; a single bit is compared with every bit of the other frame, so frames of different lengths may count as correct. Throughput equals the bits of correct frames divided by the duration of all frames and vanishes if nothing is received.", "quantifier": "all pairs of frame sequences, all durations", "why_tests_cant": "It quantifies over all frame counts, lengths and bit patterns; tests sample a few.", "anchors": ["hermespy/modem/evaluators.py:FrameErrorEvaluator", "hermespy/modem/evaluators.py:ThroughputEvaluator"]}
{"id": "C30", "title": "RF chain connections are recorded atomically", "statement": "RFChain.connect raises and leaves the chain unchanged unless it joins equally many existing output and input ports of two blocks of the chain; otherwise it records exactly the requested wires, keeps the wires between all other pairs of blocks, and keeps the lists of antenna-side inputs and outputs equal to the blocks with ports left. It does not reject ports that are already connected, a second call for the same pair of blocks drops the wires of the first, and blocks without input ports accept wires to ports they do not have.", "quantifier": "all histories of add_block / connect calls", "why_tests_cant": "histories of calls are unbounded", "anchors": ["hermespy/simulation/rf/chain.py:RFChain.connect", "hermespy/simulation/rf/chain.py:RFBlockReference"]}
{"id": "C31", "title": "RF chain propagation evaluates the block graph", "statement": "For any acyclic chain without doubly fed input ports there is exactly one assignment of outputs to blocks in which every block sees the outputs it is wired to plus the external signal on its unwired ports; transmit returns those outputs for the antenna-side outputs and receive for the digital outputs, and no block is evaluated more than once per propagation. Double feeds, which connect accepts, can make receive raise.", "quantifier": "all acyclic block graphs built by any history of calls, all block behaviours, all signals", "why_tests_cant": "graphs are unbounded; memoisation correctness is an invariant over the recursion", "anchors": ["hermespy/simulation/rf/chain.py:RFChain.transmit", "hermespy/simulation/rf/chain.py:RFChain.receive"]}
{"id": "C32", "title": "Quantization error is at most half a step", "statement": "For every resolution and quantizer type, an ADC input inside full scale is quantized with an error of at most half a quantization step, inputs outside are clipped to the outermost level, and already quantized values are reproduced.", "quantifier": "all bit widths, all input values", "why_tests_cant": "continuum of inputs and all resolutions", "anchors": ["hermespy/simulation/rf/blocks/ad.py:ADC._quantize"]}
{"id": "C33", "title": "Quantizer is monotone, symmetric and respects its resolution", "statement": "The quantizer is monotone; both types are odd except at decision thresholds inside full scale, where they round up on both sides; the mid-riser quantizer has exactly 2^b levels; the mid-tread quantizer has 2^b + 1 levels, one more than its resolution allows.", "quantifier": "all bit widths, all input values", "why_tests_cant": "It quantifies over all real inputs, bit widths and signals; tests sample a few.", "anchors": ["hermespy/simulation/rf/blocks/ad.py:ADC._quantize"]}
{"id": "C34", "title": "Automatic gain control keeps the signal inside full scale", "statement": "After automatic gain control by maximum amplitude the largest in-phase or quadrature amplitude is exactly 1/backoff, so with backoff at least one nothing exceeds full scale; an all-zero signal passes with gain one, an empty signal raises; without quantization a rescaling converter is transparent and with quantization its error is at most half a step times backoff times the input peak. RMS gain control normalises the mean square of a single stream to 1/backoff^2, but not that of several streams.", "quantifier": "all signals, gains, backoffs and bit widths", "why_tests_cant": "It quantifies over all real inputs, bit widths and signals; tests sample a few.", "anchors": ["hermespy/simulation/rf/blocks/ad.py:AutomaticGainControl", "hermespy/simulation/rf/blocks/ad.py:Gain", "hermespy/tools/math.py:rms_value"]}
{"id": "C35", "title": "Logarithmic numbers agree with their linear value", "statement": "Conversion between linear and decibel values are mutually inverse, order preserving and use ten (power) or twenty (amplitude) decibel per decade. A logarithmic number created from decibels, from a linear value or by arithmetic reports a decibel value that converts to its linear value. Sums and differences act on the linear values, products and quotients of numbers of the same kind add and subtract decibels. Values that are not positive, including differences, raise a ValueError. Pickling returns the same number.", "quantifier": "all real values, both conversions, all pairs of numbers", "why_tests_cant": "an identity over the reals for every operand, not for sample values", "anchors": ["hermespy/core/logarithmic.py:Logarithmic", "hermespy/tools/math.py:db2lin", "hermespy/tools/math.py:lin2db"]}
{"id": "C36", "title": "Radar point detectors report exactly the cells that reach the threshold", "statement": "For cubes without negative power the threshold detector reports exactly the cells whose power, or normalised excess over the weakest cell, reaches the threshold and, with peak detection, which are not weaker than the cells sharing a face with them; each once, at the position and velocity of its bins. Peak detection never loses the strongest cell, a higher threshold finds fewer cells, and normalised detection does not depend on gain. The maximum detector reports one cell of maximal power, but exchanges azimuth and zenith, so that its position is only right where both agree. Cubes with negative entries can make detection fail.", "quantifier": "all radar cubes of all shapes, all thresholds and flags", "why_tests_cant": "all cube shapes and contents", "anchors": ["hermespy/radar/detection.py:ThresholdDetector", "hermespy/radar/detection.py:MaxDetector", "hermespy/radar/cube.py:RadarCube"]}
{"id": "C37", "title": "CFAR thresholds ignore the cell under test and its guard cells", "statement": "The CFAR decision for a cell compares its power to the mean power of the training cells, that is of the cells of the same angle within the window but outside the guard window and inside the cube, times the factor n(pfa^(-1/n)-1). It depends on no other cell and not on a common gain; a higher false alarm probability finds more cells, zero finds none, and flat cubes yield nothing up to a probability of 1/e. Cubes smaller than the window raise a ValueError.", "quantifier": "all cubes, window sizes, positions and false alarm probabilities", "why_tests_cant": "all contents and shapes, including borders", "anchors": ["hermespy/radar/detection.py:CFARDetector"]}
{"id": "C38", "title": "Waveform routines point back to their waveform", "statement": "After any history of constructing and assigning synchronizations and channel estimators, no call raises, every waveform uses a routine that reports this waveform, and no routine is used by two waveforms; an assignment changes no other waveform than the one the routine reported before. For equalizers this holds as long as no call raises; a call raises exactly when the equalizer reports another waveform, and then leaves the waveform with a foreign equalizer. Detaching an estimator that was replaced before removes the estimator in use.", "quantifier": "all histories of constructions and assignments over any number of waveforms and routines", "why_tests_cant": "object-reference histories are unbounded; setters call each other", "anchors": ["hermespy/modem/waveform.py:CommunicationWaveform", "hermespy/modem/waveform.py:ChannelEstimation", "hermespy/modem/waveform.py:Synchronization", "hermespy/modem/waveform.py:ChannelEqualization"]}
{"id": "C39", "title": "Sparse and dense signals represent the same samples", "statement": "The dense form of a sparse signal holds the stored column at every stored instant and zeros elsewhere. Converting a matrix to sparse form keeps every column whose entries do not sum to zero at its place, so that converting back returns the same samples up to trailing silent columns for every matrix without cancelling columns. Columns that sum to zero over the streams are lost, and an all-zero matrix loses its number of streams.", "quantifier": "all sample matrices and block layouts", "why_tests_cant": "unbounded matrices and layouts; the loss only shows for cancelling columns", "anchors": ["hermespy/core/signal_model.py:SparseSignal.to_dense", "hermespy/core/signal_model.py:SparseSignal.__from_dense"]}
{"id": "C40", "title": "Superposition adds signals sample by sample at their time", "statement": "Superimposing a signal onto a sparse signal (same rate, carrier, stream count) yields at every instant the sum of both, the added one shifted by its delay, for every block layout and every positive or negative whole-sample delay; for a dense receiver this holds for non-positive delays. Known exceptions: a later signal superimposed onto a dense one loses its end instead of being shifted, a delayed sparse signal is itself shifted by the call, and a stream selection is checked but not honoured by sparse signals.", "quantifier": "all signals, block layouts and delays", "why_tests_cant": "all layouts of overlapping blocks and delays", "anchors": ["hermespy/core/signal_model.py:SparseSignal.superimpose", "hermespy/core/signal_model.py:DenseSignal.superimpose", "hermespy/core/signal_model.py:SparseSignal._getblocks_union"]}
{"id": "C41", "title": "Appending samples and streams keeps existing samples", "statement": "append_samples keeps every existing sample and places the new ones directly behind, for sparse and dense signals alike; append_streams on a dense signal adds the value's streams instant by instant and pads shorter values with zeros. A sparse signal rejects samples with another stream count (a dense one repeats a single stream). append_streams on a sparse signal returns exactly the stacked streams whenever it returns, and it returns whenever every stretch of activity ends with both signals active; it refuses streams active at different times.", "quantifier": "all signals and block layouts", "why_tests_cant": "unbounded layouts", "anchors": ["hermespy/core/signal_model.py:DenseSignal.append_samples", "hermespy/core/signal_model.py:SparseSignal.append_samples", "hermespy/core/signal_model.py:DenseSignal.append_streams", "hermespy/core/signal_model.py:SparseSignal.append_streams"]}
{"id": "C42", "title": "Slicing a sparse signal selects the right instants", "statement": "For every slice start:stop:step with non-negative bounds and every stream selection, instant t of the sliced sparse signal is instant start+t*step of the original (silence behind stop), for steps one and two always and for larger steps if every block starts before start or on the raster; otherwise blocks are read at wrong instants. Negative bounds are not counted from the end.", "quantifier": "all signals, block layouts and slices", "why_tests_cant": "unbounded layouts and slices", "anchors": ["hermespy/core/signal_model.py:SparseSignal.__getitem__"]}
{"id": "C43", "title": "Seeds determine random streams", "statement": "After random_mother of a RandomNode is assigned, every draw of the node is a draw from its mother (recursively) until its own seed or mother is assigned again; after a seed is assigned the numbers drawn from the node's generator, by itself or by its descendants, are exactly the stream of that seed from its beginning; hierarchies in which every node was seeded draw equal numbers for equal histories whatever the operating system's entropy; draws always succeed in hierarchies without cyclic mothers. A mother passed to the constructor is ignored, and a cycle of mothers is accepted but makes drawing fail.", "quantifier": "all node hierarchies, all histories of construction, seeding, mother assignment and draws", "why_tests_cant": "The relation between draws and seeds holds along every interleaving of assignments and draws of arbitrarily deep hierarchies.", "anchors": ["hermespy/core/random_node.py:RandomNode._rng", "hermespy/core/random_node.py:RandomNode.seed", "hermespy/core/random_node.py:RandomNode.random_mother"]}
{"id": "C44", "title": "Every registered hook receives every later event exactly once", "statement": "A notification of a Hookable invokes exactly the hooks registered and not removed since, each once, whatever the iteration order of the set; Hook.remove() only reaches the hookable the hook was created for. A callback that registers or removes a hook of the hookable being notified makes the notification raise RuntimeError, and hooks not yet visited miss the event.", "quantifier": "all histories of add_callback / add_hook / remove_hook / remove over any number of hookables, all iteration orders, all callbacks", "why_tests_cant": "Holds for every history and set iteration order; re-entrant callbacks depend on CPython's set iteration check, which tests with a single callback do not reach.", "anchors": ["hermespy/core/hooks.py:Hookable.notify", "hermespy/core/hooks.py:Hookable.add_callback", "hermespy/core/hooks.py:Hook.remove"]}
{"id": "C45", "title": "Encoders run in order of increasing block size", "statement": "After any sequence of add_encoder calls the manager's chain contains exactly the registered encoders, sorted by data block size, and encoders with equal block size stay in registration order.", "quantifier": "all chains and all registered encoders", "why_tests_cant": "permutations of arbitrary length", "anchors": ["hermespy/fec/coding.py:EncoderManager.add_encoder"]}
{"id": "C46", "title": "The advertised number of data bits fills the requested code length", "statement": "Encoding required_num_data_bits(n) data bits to n code bits succeeds for every n when the code block size of every encoder divides both block sizes of the next one; for sizes that only divide the next data block size the advertised number can be too large and encoding raises.", "quantifier": "all encoder stacks, all code lengths, all data", "why_tests_cant": "integer arithmetic along chains of arbitrary length", "anchors": ["hermespy/fec/coding.py:EncoderManager.required_num_data_bits", "hermespy/fec/coding.py:EncoderManager.bit_block_size"]}
{"id": "C47", "title": "Progress reports reach one exactly when all work has been handed out", "statement": "For one-dimensional grids and every history of work and disable requests, the progress reported by the queue manager is the share of credited samples and stays below one exactly as long as work is left. For grids of two and more dimensions this fails: the report raises an index error or reaches one (which ends the simulation) while three quarters of the work have not been handed out.", "quantifier": "all grids, sample counts, batch sizes and request histories", "why_tests_cant": "depends on the history of requests and on grid shapes", "anchors": ["hermespy/core/pymonte/actors.py:MonteCarloQueueManager.query_progress", "hermespy/core/pymonte/monte_carlo.py:MonteCarlo.simulate"]}
{"id": "C48", "title": "A section run yields one sample per combination of stage arguments", "statement": "A section that opens a batch contributes exactly one sample per combination of stage arguments. Sections later in the batch whose configuration differs only in late-impact dimensions contribute fewer samples, so sections of one batch do not contribute equally.", "quantifier": "all stage lists, stage arguments, objects, sections", "why_tests_cant": "numbers of arguments and stages are unbounded", "anchors": ["hermespy/core/pymonte/actors.py:MonteCarloActor"]}
{"id": "C49", "title": "Each computed batch enters the results exactly once", "statement": "In every interleaving of actors, the running collector and the final result request, only computed batches are counted, each at most once until the final request and never more than twice; if no batch is stashed while the same actor's list is being fetched, every computed batch is counted or still waiting. Exactly-once does not hold: the final request can count a batch a second time, a batch stashed between copying and clearing is lost, and batches stashed after the last fetch are dropped.", "quantifier": "all numbers of actors, all interleavings of atomic steps", "why_tests_cant": "races need schedules that tests cannot enumerate", "anchors": ["hermespy/core/pymonte/actors.py:MonteCarloCollector.run", "hermespy/core/pymonte/actors.py:MonteCarloCollector.fetch_results", "hermespy/core/pymonte/actors.py:MonteCarloActor.fetch_results", "hermespy/core/pymonte/actors.py:MonteCarloActor.run"]}
{"id": "C50", "title": "Pseudo random scrambling sequence", "statement": "PseudoRandomGenerator built from a seed of 4 to 1600 bits outputs, for any number of requested bits, c(n) = x1(n+1600) + x2(n+1600) mod 2 of two fixed linear recurrences started from 1,0,0,... and the seed; reset() replays the sequence from n = 0 after any history of requests. The recurrences are not those of the 3GPP TS 38.211 Gold sequence the documentation refers to: for some 31 bit seed the outputs differ.", "quantifier": "every seed, every number of requested bits and every history of requests before a reset", "why_tests_cant": "The sequence is unbounded and depends on every seed bit; tests only compare two generators with each other and never against the standard's recurrence.", "anchors": ["hermespy/fec/scrambler.py:PseudoRandomGenerator.__init__", "hermespy/fec/scrambler.py:PseudoRandomGenerator.generate_sequence", "hermespy/fec/scrambler.py:PseudoRandomGenerator.reset"]}
{"id": "C51", "title": "Zero forcing inverts every channel with independent columns", "statement": "Zero forcing equalization of symbols received over any number of antennas returns the transmitted symbols whenever the channel matrix of each symbol is injective; with one receive antenna it returns the symbol common to all transmit antennas if the coefficients do not cancel.", "quantifier": "all numbers of antennas, blocks and symbols, all channels and symbols", "why_tests_cant": "continuum of channel matrices of unbounded size", "anchors": ["hermespy/modem/waveform.py:ZeroForcingChannelEqualization.equalize_channel"]}
{"id": "C52", "title": "Selection combining picks the strongest antenna", "statement": "For every symbol, selection combining returns the symbol of a receive antenna whose summed channel coefficient is maximal, together with its states; with a single transmit stream the returned states are duplicated so that a following zero forcing returns half of the symbol; more than two transmit streams raise.", "quantifier": "all numbers of antennas, all channels and symbols", "why_tests_cant": "continuum of inputs, unbounded number of antennas", "anchors": ["hermespy/modem/precoding/single_carrier.py:SingleCarrier.decode_symbols", "hermespy/modem/waveform.py:ZeroForcingChannelEqualization.equalize_channel"]}
{"id": "C53", "title": "Time stamps of frames", "statement": "The time stamp of a transmitted frame is the time of its first sample. The time stamp of a received frame is that time multiplied by the square of the sampling rate, hence wrong unless the frame starts at zero or the sampling rate is one.", "quantifier": "all frame positions, durations and sampling rates", "why_tests_cant": "The claim is about all sampling rates; tests do not read time stamps of receptions.", "anchors": ["hermespy/modem/modem.py:TransmittingModemBase._transmit", "hermespy/modem/modem.py:ReceivingModemBase._receive"]}
{"id": "C54", "title": "Bits, streams and symbols of a modem", "statement": "Mapping bits to any number of streams gives every stream its own consecutive section, raises a ValueError if the bits cannot be divided evenly, and unmapping returns the bits if the single-stream mapping is invertible; the symbols of a transmission or reception are, stream by stream, the blocks of all frames in order.", "quantifier": "all numbers of streams, bit sequences, mappings and frame lists", "why_tests_cant": "It quantifies over all frame counts, lengths and bit patterns; tests sample a few.", "anchors": ["hermespy/modem/modem.py:TransmittingModemBase.__map", "hermespy/modem/modem.py:ReceivingModemBase.__unmap", "hermespy/modem/symbols.py:Symbols.append_stream", "hermespy/modem/symbols.py:Symbols.append_symbols"]}
{"id": "C55", "title": "Error vector magnitude", "statement": "The error vector magnitude is the root mean square distance of the symbols both sides have: not negative, zero iff these agree, symmetric, proportional under scaling; symbols missing on one side never count.", "quantifier": "all complex symbol sequences", "why_tests_cant": "It quantifies over all complex sequences of any length.", "anchors": ["hermespy/modem/evaluators.py:EVMEvaluation"]}
{"id": "C56", "title": "Converters process frames independently", "statement": "A converter that splits its input into whole frames converts every frame on its own and returns a signal of the same length; the default is one frame; an incomplete last frame of at least two samples raises a ValueError and frames shorter than half a sample period lose the signal.", "quantifier": "all signals, frame lengths and converter settings", "why_tests_cant": "It quantifies over all signal and frame lengths.", "anchors": ["hermespy/simulation/rf/blocks/ad.py:ADC._propagate"]}
{"id": "C57", "title": "Elements of logarithmic sequences read back faithfully", "statement": "Each element of a sequence of powers reads back as a logarithmic number with the stored linear value and the matching decibel value, after creation from linear or decibel values, slicing, multiplication, pickling and assignment of elements of the same kind. It fails for sequences of amplitudes, whose elements report half their decibel value until they are sliced or assigned, and after in-place arithmetic. Values that are not positive can be stored but not read.", "quantifier": "all sequences, values, slices and assignments", "why_tests_cant": "the decibel values are kept beside the array, so that agreement depends on the history of operations", "anchors": ["hermespy/core/logarithmic.py:LogarithmicSequence"]}
{"id": "C58", "title": "Constellations are listed by label and have unit energy", "statement": "The listed mapping of every mapper has one entry per label, and the entry at the binary value of a label (first bit most significant) is the symbol the label is mapped to. Its mean energy is one for built-in constellations and for custom constellations with a non-zero point; custom points are all scaled by one positive factor.", "quantifier": "all mappers, all custom constellations", "why_tests_cant": "custom constellations are arbitrary real point sets of any power-of-two size", "anchors": ["hermespy/modem/tools/psk_qam_mapping.py:PskQamMapping.get_mapping", "hermespy/modem/tools/psk_qam_mapping.py:PskQamMapping.__init__"]}
{"id": "C59", "title": "Recorded drops are replayed in order, per campaign, across recordings", "statement": "For any sequence of recordings into one file, each made under any campaign name other than the reserved names arrays, drops and state (or under none), with any acyclic scenario state and any drops, where memory may change between drops: recording succeeds; replaying a campaign with an offset announces exactly the number of drops recorded in that campaign over all its recordings minus the offset, and raises ValueError if the offset is not below that number; the drop at each position equals the recorded drop of that position up to addresses, whatever was replayed before, and past the last one an IndexError is raised. Restoring the scenario yields the state under which the campaign was first recorded: the states of later recordings into the same campaign are dropped silently. A campaign named drops breaks recordings without a campaign: replay announces drops that do not exist.", "quantifier": "every sequence of recordings, campaign assignment, object graph per drop, offset and sequence of replay calls", "why_tests_cant": "tests record and replay one or two drops of one campaign in a fresh file; the absence of interference between campaigns, appended recordings and positions is a statement about every history", "anchors": ["hermespy/core/scenario.py:Scenario.record", "hermespy/core/scenario.py:Scenario.replay", "hermespy/core/scenario.py:Scenario.Replay", "hermespy/core/scenario.py:Scenario.drop", "hermespy/core/factory.py:HDFSerializationProcess.serialize_object_sequence", "hermespy/core/factory.py:HDFDeserializationProcess.deserialize_object_sequence", "hermespy/core/factory.py:HDFDeserializationProcess.sequence_length"]}
{"id": "C60", "title": "Kinematic chains answer as if nothing were cached", "statement": "For any program of assignments to position, orientation or pose, attachments (set_base, add_link), detachments (set_base(None), remove_link) and queries on any number of frames, as long as no attachment closes a cycle: every query of forwards_transformation, backwards_transformation or to_local_coordinates returns the value computed from the current poses along the current chain, removing a missing link raises RuntimeError exactly if removal is forced, and no other call raises. lookat on an attached frame breaks this, because it changes the pose without invalidating cached transformations, until the pose is assigned again; attaching frames in a cycle is accepted and makes every later query fail with RecursionError.", "quantifier": "every program of calls, any number of frames, any transformations, any chain depth below the interpreter's recursion limit", "why_tests_cant": "cache staleness depends on the interleaving of moves, re-attachments and queries over a whole tree; tests exercise single chains", "anchors": ["hermespy/core/transformation.py:TransformableLink", "hermespy/core/transformation.py:TransformableBase", "hermespy/core/transformation.py:Transformable.set_base", "hermespy/core/transformation.py:Transformable.forwards_transformation", "hermespy/core/transformation.py:Transformable.backwards_transformation", "hermespy/core/transformation.py:Transformable.to_local_coordinates", "hermespy/core/transformation.py:Transformable.lookat", "hermespy/core/transformation.py:Transformable._kinematics_updated"]}
{"id": "C61", "title": "Transformations are rigid motions", "statement": "Transformations built from roll, pitch and yaw, from any nonzero quaternion with normalisation or from a unit quaternion without, and all their products and inverses, are rigid: they form a group, transforming by a product transforms one after the other, the inverse undoes the transformation of any three-dimensional position, and distances, angles and handedness are kept; normalised directions have unit length. Two-dimensional positions are cut after the transformation, so the inverse does not undo it for them.", "quantifier": "all angles, quaternions, translations and positions, in exact real arithmetic", "why_tests_cant": "tests try a few angles with a tolerance; the group laws and isometry range over all real parameters", "anchors": ["hermespy/core/transformation.py:Transformation.From_RPY", "hermespy/core/transformation.py:Transformation.From_Quaternion", "hermespy/core/transformation.py:Transformation.transform_position", "hermespy/core/transformation.py:Transformation.rotate_direction", "hermespy/core/transformation.py:Transformation.invert"]}
{"id": "C62", "title": "Orientations are read back", "statement": "The roll, pitch and yaw read from any rigid transformation describe its rotation, except that a pitch of exactly minus ninety degrees is always misread as plus ninety degrees; assigned angles in the principal range are read back unchanged. Quaternions differing by a positive factor describe the same rotation. The quaternion read from a rotation by less than 120 degrees has a wrong real part: the reciprocal of sixteen times the right one, so it is never of unit length.", "quantifier": "all proper rotation matrices, all angles and quaternions", "why_tests_cant": "the exceptional poses form a null set that random tests do not hit, and the quaternion getter is excluded from tests", "anchors": ["hermespy/core/transformation.py:Transformation.rotation_rpy", "hermespy/core/transformation.py:Transformation._rotation_from_rpy", "hermespy/core/transformation.py:Transformation.rotation_quaternion", "hermespy/core/transformation.py:Transformation._rotation_from_quaternion"]}
{"id": "C63", "title": "Directions and pointing", "statement": "Directions given by azimuth and zenith have unit length; the angles are read back if the azimuth is in (-pi, pi] and the zenith strictly between the poles; every unit vector is rebuilt from its angles. Pointing a transformation at a target that does not lie along the upward direction keeps its position and gives a rigid transformation whose third axis points at the target, whose first axis is perpendicular to the upward direction and whose second axis has a positive upward component; for a target along the upward direction the result is singular.", "quantifier": "all directions, targets, positions and upward vectors", "why_tests_cant": "the properties hold for a continuum of poses and fail on degenerate ones that tests do not choose", "anchors": ["hermespy/core/transformation.py:Direction.From_Spherical", "hermespy/core/transformation.py:Direction.to_spherical", "hermespy/core/transformation.py:Transformation.lookat"]}
{"id": "C64", "title": "Antenna patterns turn with the antenna", "statement": "For every rigid pose and every unit direction, the field vector described by an antenna's two global polarisation components is the antenna's local field vector turned by the pose; hence the radiated power towards a direction only depends on the direction relative to the antenna. Ideal and linear antennas radiate unit power everywhere, patches at least 1/100 and no antenna more than one. Directions may be given in the array's or in the global frame with the same answer, and a global location gives the answer of its direction from the array's origin. Locations given in the array's own frame give that answer only if the array is not turned (characteristics does not rotate them).", "quantifier": "every antenna type, slant, rigid pose, unit direction, location and request mode", "why_tests_cant": "a test can only sample poses and directions; the law is about all rotations", "anchors": ["hermespy/core/antennas.py: Antenna.global_characteristics, AntennaArrayBase.characteristics, IdealAntenna, LinearAntenna, PatchAntenna, Dipole"]}
{"id": "C65", "title": "Array phase responses follow the geometry", "statement": "The topology of an array does not depend on where the array is; a mode request considers exactly the antennas able to transmit or receive, in order; the cartesian phase response towards a global position is exp(-2 pi j f d / c) with the true distance d of every antenna, whatever the rigid pose of the array; local and global positions of the same point give the same response; all responses have unit modulus; the horizontal response at an elevation is the spherical response at the complementary zenith; and towards a distant point the cartesian response approaches the plane wave response with an explicit error bound 2 pi f / c |t|^2 / (2 (r - |t|)).", "quantifier": "every array, rigid pose, carrier frequency, position, angle and request mode", "why_tests_cant": "quantifies over all geometries, including the limit of large distances", "anchors": ["hermespy/core/antennas.py: AntennaArrayBase.topology, cartesian_phase_response, horizontal_phase_response, spherical_phase_response, transmit_antennas, receive_antennas"]}
{"id": "C66", "title": "Uniform arrays stay on their grid", "statement": "After any sequence of accepted and refused changes of spacing and dimensions, a uniform array has exactly one antenna at every point of the grid described by the last accepted values, all copies of the configured element with its orientation, no two closer than the spacing, and for non-negative dimensions the reported number of antennas is the length of the antenna list. With two negative dimensions (which are accepted) the reported number is positive although the array is empty.", "quantifier": "every element, spacing, dimensions and every finite history of changes", "why_tests_cant": "unbounded histories and sizes", "anchors": ["hermespy/core/antennas.py: UniformArray.spacing, UniformArray.dimensions, UniformArray.num_antennas"]}
{"id": "C67", "title": "Conventional beamforming passes its focus and amplifies nothing", "statement": "For an array that is not turned with respect to the scene, a plane wave carrying any stream from the direction a conventional receive beamformer is focused on is decoded to exactly that stream, and a plane wave from any other direction is decoded to samples of at most the stream's magnitude. Transmitting, the antennas' signals add up to the number of antennas times the stream in the focus direction, and to at most that magnitude in every other direction. For turned arrays this holds for focus angles given along the axes of the scene; a focus direction given in the scene, which is converted to the array's axes, can be missed completely.", "quantifier": "all arrays, antenna modes and positions, carriers, directions, focus kinds and streams of any length", "why_tests_cant": "the claim ranges over all array geometries, all directions and all sample values; the turned array case needs a pose tests never set", "anchors": ["hermespy/beamforming/conventional.py:ConventionalBeamformer", "hermespy/beamforming/beamformer.py:ReceiveBeamformer.decode_streams", "hermespy/beamforming/beamformer.py:TransmitBeamformer.encode_streams", "hermespy/beamforming/beamformer.py:CoordinateFocus.spherical_angles"]}
{"id": "C68", "title": "Capon beamforming is distortionless and minimises the output power", "statement": "Whenever the Capon receive beamformer returns, its output is obtained by weights with unit gain in the focus direction, so a stream arriving from there is passed on unchanged next to the combined rest, and among all weights with unit gain in the focus direction they minimise the energy of the output plus the loading times the energy of the weights, for any received block and any non-negative loading.", "quantifier": "all arrays, carriers, focus directions, received blocks, loadings and all competing weights", "why_tests_cant": "optimality compares against every other choice of weights", "anchors": ["hermespy/beamforming/capon.py:CaponBeamformer._decode", "hermespy/beamforming/beamformer.py:ReceiveBeamformer.decode_streams"]}
{"id": "C69", "title": "Null steering silences the null directions", "statement": "If the response of the focus is not a combination of the conjugated responses of the two null directions, the null steering beamformer transmits streams with unchanged total power of which nothing arrives in the two null directions, and, if all antennas receive, decodes plane waves from either null direction to zeros. With antennas that do not receive, decoding more than one antenna's signal always fails. The focus itself is not guaranteed to be served: it can be silenced as well, although other weights with the same nulls and power serve it.", "quantifier": "all arrays, carriers, foci and null directions, streams of any length and all generalised inverses", "why_tests_cant": "holds for every geometry and every pair of nulls; tests check single geometries", "anchors": ["hermespy/beamforming/nullsteeringbeamformer.py:NullSteeringBeamformer"]}
{"id": "C70", "title": "Channel state information describes the propagation of its channel sample", "statement": "For ideal, delay and multipath fading channel samples, propagating a signal over the channel state obtained from the sample (with at least as many samples as the signal and more taps than the largest delay) yields the same streams and samples as propagating the signal over the sample itself. With fewer taps the fading state describes the channel without the paths arriving later. Two corners fail: a fading state request whose number of taps equals the delay of a path raises an IndexError, and a fading state counts all antennas instead of only the receiving ones.", "quantifier": "all gains, antenna counts, delays, bandwidths, path sets, transmitted signals, numbers of samples and taps", "why_tests_cant": "The agreement is between two separately implemented convolutions and must hold for every signal, delay profile and tap count; tests compare a few realizations.", "anchors": ["hermespy/channel/ideal.py:IdealChannelSample.state", "hermespy/channel/delay/delay.py:DelayChannelSample.state", "hermespy/channel/fading/fading.py:MultipathFadingSample.state", "hermespy/core/channel.py:ChannelStateInformation.propagate"]}
{"id": "C71", "title": "Channel propagation is linear and causal, and delays are kept", "statement": "Propagating the sum of two signals gives the sum of the propagated signals, propagating a multiple gives the multiple, and the first n received samples depend on the first n transmitted samples only, for ideal, delay and fading samples and for channel states. A delay channel delays by the number of samples nearest to delay times bandwidth.", "quantifier": "all channel samples, all pairs of signals, all complex factors, all n", "why_tests_cant": "Linearity and causality quantify over all pairs of signals.", "anchors": ["hermespy/channel/ideal.py:IdealChannelSample._propagate", "hermespy/channel/delay/delay.py:DelayChannelSample._propagate", "hermespy/channel/fading/fading.py:MultipathFadingSample._propagate"]}
{"id": "C72", "title": "Signals of several blocks propagate like the whole signal if blocks are far enough apart", "statement": "If the gaps between the blocks of a signal are at least as long as the channel's memory and the channel does not change over time, propagating it block by block yields the same samples as propagating the dense signal; a signal of a single block comes out delayed by the block's offset; a channel with zero scale yields an empty signal. It fails otherwise: with smaller gaps the tail of a block is overwritten by the next one instead of being added to it, and moving fading channels restart their phase at every block.", "quantifier": "all ideal, delay and fading samples, all lists of two or more blocks, all offsets, lengths and samples", "why_tests_cant": "Quantifies over all block structures of signals; the failing cases only appear for overlapping tails or motion.", "anchors": ["hermespy/channel/channel.py:ChannelSample.propagate", "hermespy/core/signal_model.py:SparseSignal.to_dense", "hermespy/core/signal_model.py:Signal.Create"]}
{"id": "C73", "title": "Conversions of channel states are lossless up to truncation, and channels are reciprocal", "statement": "Converting an impulse response to a frequency response of at least as many bins and back restores all taps (followed by zeros) for the samples kept, and frequency responses survive the opposite round trip; the number of samples is however cut to the number of bins. The linear transformation of a state with one transmitting antenna is its propagation and the one of a frequency response is diagonal; with several transmitting antennas impulse response weights are attributed to wrong antennas. Ideal, delay and fading channels are reciprocal: antenna r receives from antenna t what t receives from r over the reciprocal sample, and fading states of both directions are reciprocal to each other.", "quantifier": "all channel states, numbers of bins, channel samples and signals", "why_tests_cant": "Round trips through Fourier transforms, array reshaping and reciprocity hold or fail depending on dimensions that tests fix.", "anchors": ["hermespy/core/channel.py:ChannelStateInformation.to_frequency_selectivity", "hermespy/core/channel.py:ChannelStateInformation.to_impulse_response", "hermespy/core/channel.py:ChannelStateInformation.linear", "hermespy/core/channel.py:ChannelStateInformation.reciprocal", "hermespy/channel/fading/fading.py:MultipathFadingRealization._reciprocal_sample"]}
{"id": "C74", "title": "Propagation leaves transmitted signals unchanged, fading powers are normalised", "statement": "An ideal channel leaves the propagated signal as it is when a single antenna transmits or receives, when more antennas receive than transmit, or when its gain is one; otherwise it scales the caller's samples in place, so that propagating the same signal twice gives different results. The squared gains of specular and diffuse components of rice fading add up to one in the ratio of the rice factor, an infinite factor yields a constant power, and no amplitude exceeds that of all components in phase.", "quantifier": "all gains, antenna counts, signals, rice factors, numbers of sinusoids, phases and times", "why_tests_cant": "Aliasing of caller data only shows for particular antenna counts and gains; normalisation is about all factors.", "anchors": ["hermespy/channel/ideal.py:IdealChannelSample._propagate", "hermespy/channel/fading/fading.py:MultipathFadingChannel", "hermespy/channel/fading/fading.py:MultipathFadingSample"]}
{"id": "C75", "title": "Devices and links of a scenario", "statement": "In every history of adding devices, assigning channels and switching modes (failing calls included), a scenario's devices are distinct and kept in order of registration; a successful add_device gives the device the next index, changes no other index and no existing link, and links the new device by the default channel; set_channel(a, b, c) on registered devices always succeeds, makes channel(a, b) and channel(b, a) return c and changes no other link and no other scenario; on unknown devices set_channel and channel raise ValueError and nothing changes; links never assigned return the default channel; device_channels returns exactly the channels of the device's links. Exceptions: adding a device that belongs to another scenario raises NotImplementedError but leaves it registered, and device_channels(active_only=True) may return the inactive default channel.", "quantifier": "all histories of calls over any number of scenarios, devices and channels", "why_tests_cant": "tests try a few sequences of calls", "anchors": ["hermespy/simulation/scenario.py: channel, device_channels, set_channel", "hermespy/core/scenario.py: add_device, device_index", "hermespy/simulation/simulated_device.py: scenario setter"]}
{"id": "C76", "title": "Propagation between all devices", "statement": "A scenario's channels contain no duplicates and only channels in use or the default channel; as long as the default channel is never assigned to a link explicitly, all channels in use are listed, and propagate succeeds for every number of devices: device i receives from device j what the realization of exactly their link's channel makes of j's unchanged transmission, the sample of one direction being derived from that of the other one. Exceptions: after assigning and replacing the default channel explicitly it is no longer listed and propagate raises; ideal channels with loss and equally many antennas scale transmissions in place, so that later receivers see them scaled repeatedly; explicitly linked channels belong to their scenario (and its seed), the default channel does not.", "quantifier": "all histories, numbers of devices, realizations, device states and transmissions", "why_tests_cant": "tests propagate between two or three devices", "anchors": ["hermespy/simulation/scenario.py: set_channel, propagate, __init__", "hermespy/channel/ideal.py: IdealChannelSample._propagate", "hermespy/channel/channel.py: scenario setter"]}
{"id": "C77", "title": "Trigger models and their realizations", "statement": "Whatever sequence of trigger_model assignments and add_device calls, a trigger model lists a device if and only if it is the device's trigger model, and the last assignment counts (remove_device breaks this); realize_triggers realizes every trigger model once and hands the same realization to all of its devices; trigger realizations hold non-negative numbers of samples at positive rates, converted to other rates by rounding down, so that the number at the original rate is the realized one in exact arithmetic. In double precision it may be one less: 3 offset samples at 100 MHz are converted to 2.", "quantifier": "all sequences of assignments, devices, trigger models, offsets and sampling rates", "why_tests_cant": "tests assign one or two trigger models and convert a few offsets", "anchors": ["hermespy/simulation/simulated_device.py: TriggerRealization, TriggerModel, SimulatedDevice.trigger_model", "hermespy/simulation/scenario.py: realize_triggers"]}
{"id": "C78", "title": "Leakage between transmitting and receiving antennas", "statement": "Leaking a signal raises unless the isolation belongs to a device and the signal has as many streams as the device has transmitting antennas. Perfect isolation leaks silence of the signal's length; specific isolation leaks to every receiving antenna the sum of the transmitted streams, each divided by the square root of the isolation between the two antennas, so that the isolation is the ratio of the powers; isolations that are not positive leak non-finite samples; an isolation that was never specified raises RuntimeError. Selective leakage convolves the transmission with the leakage response, i.e. it behaves like a channel with a constant impulse response. Exceptions: assigning None to a specified isolation does not stop the leakage, and selective leakage accepts responses for the wrong number of streams.", "quantifier": "all isolation matrices, antenna counts, signals and responses", "why_tests_cant": "tests leak a few random signals through one matrix", "anchors": ["hermespy/simulation/isolation/isolation.py: Isolation.leak", "hermespy/simulation/isolation/perfect.py", "hermespy/simulation/isolation/specific.py", "hermespy/simulation/isolation/selective.py"]}
{"id": "C79", "title": "Mutual coupling of antennas", "statement": "Coupling checks the number of streams; perfect coupling leaves every stream as it is; impedance coupling only accepts square matrices; the transmitted streams are the product of the two configured matrices' square-root expressions with the streams, finite exactly if the code's element-wise powers are; for one antenna, the defaults scale by a constant. With two or more antennas the default transmission consists of non-finite samples only (element-wise powers of zeros), while default reception scales by a constant.", "quantifier": "all numbers of antennas, impedances, correlations, signals", "why_tests_cant": "tests check default behaviour for one antenna and mock matrices", "anchors": ["hermespy/simulation/coupling/coupling.py", "hermespy/simulation/coupling/perfect.py", "hermespy/simulation/coupling/impedance.py"]}
{"id": "C80", "title": "Output of a device with several operators", "statement": "For any number of transmissions with as many streams as transmitting antennas (some may be missing), generate_output emits their sum, as long as the longest one, with stream i multiplied by the weight of antenna i and the square root of the transmit power, delayed by the trigger's delay; the leaking signal is that of the unscaled sum; with separate operators this holds for each transmission individually; mismatching numbers raise ValueError, missing transmissions of separate operators raise AttributeError. All transmissions are unchanged by the call except possibly the first one that has samples, into whose signal the others may be added. Selecting ports does not work: the first selection is ignored, later ones require the transmission to provide all addressed streams; later transmissions are added on exactly the selected ports; surplus streams are dropped.", "quantifier": "all numbers of operators and antennas, transmissions, weights, powers and leakages", "why_tests_cant": "tests use one or two operators and check shapes", "anchors": ["hermespy/simulation/simulated_device.py: SimulatedDevice.generate_output, _simulate_output", "hermespy/simulation/antennas.py: SimulatedAntennaArray.transmit", "hermespy/core/signal_model.py: DenseSignal.superimpose"]}
{"id": "C81", "title": "Reception of impinging signals", "statement": "A device receives the sum of all impinging signals, each shifted by its delay relative to the trigger (parts before the trigger are cut), with stream i multiplied by the weight of antenna i, plus leakage unchanged; this succeeds whenever the signals are dense and none starts after the end of all signals before it. Otherwise reception may fail: two non-empty signals separated by silence always raise TypeError, because the mixture stays sparse and the antennas cannot process sparse signals. No other outcome is possible.", "quantifier": "all numbers of signals, delays, antennas, weights", "why_tests_cant": "tests receive single signals or simultaneous ones", "anchors": ["hermespy/simulation/simulated_device.py: SimulatedDevice.process_from_realization", "hermespy/simulation/antennas.py: SimulatedAntennaArray.receive", "hermespy/core/signal_model.py: SparseSignal.superimpose, __setitem__"]}
{"id": "C82", "title": "Power amplifiers distort amplitudes as their models describe", "statement": "Amplifiers are constructed exactly for non-negative gains and valid parameters (ValueError otherwise) and accept signals of one stream only. Sample by sample: the linear amplifier multiplies by the gain; the clipping amplifier outputs an amplitude of min(gain*|z|, saturation) at the phase of the input and leaves unsaturated samples at the scaled input; Rapp's amplifier keeps the phase, never exceeds an amplitude of one nor the scaled input, and is strictly increasing in the amplitude; Saleh's amplifier outputs alpha*a/(1+beta*a^2), at most alpha/(2*sqrt(beta)), rotated by its phase characteristic, and is not monotone; the custom amplifier applies the measured gain and phase at measured amplitudes and stays within the range of the measured values in between. Every memoryless amplifier commutes with a rotation of its input. Corners: negative phase factors are accepted by Saleh's amplifier although they divide by zero; the custom amplifier accepts one mismatching list and then always raises; the memory polynomial amplifier raises ValueError for every signal.", "quantifier": "Every gain, parameter set, list of measured points and complex-valued signal of any length", "why_tests_cant": "Unit tests sample a few amplitudes of a few parameter sets; bounds, monotonicity, phase preservation and equivariance are statements about all real amplitudes, phases and parameters", "anchors": ["hermespy/simulation/rf/blocks/amps.py:PowerAmplifier", "hermespy/simulation/rf/blocks/amps.py:ClippingPowerAmplifier", "hermespy/simulation/rf/blocks/amps.py:RappPowerAmplifier", "hermespy/simulation/rf/blocks/amps.py:SalehPowerAmplifier", "hermespy/simulation/rf/blocks/amps.py:CustomPowerAmplifier", "hermespy/simulation/rf/blocks/amps.py:MemoryPolynomialPowerAmplifier"]}
{"id": "C83", "title": "Frequency conversion by mixers and multipliers", "statement": "A mixer multiplies its signal by its local oscillator (by the conjugate when converting down), sample by sample, and adds (subtracts) the frequencies; converting down below zero raises ValueError. Converting up and then down with the same oscillator multiplies each sample by the squared oscillator amplitude and restores the frequency. Ideal mixers keep all samples and move the frequency by the oscillator frequency; up then down restores it, down then up restores it exactly for frequencies not below the oscillator (others are mirrored). A frequency quadrupler keeps samples and multiplies every frequency by four. After mixers the reported carrier frequency is that of the stream; after quadruplers and sources it is not.", "quantifier": "Every signal of any length, all non-negative frequencies and all oscillator samples", "why_tests_cant": "Tests mix a few signals at fixed frequencies; round trips and frequency bookkeeping are claims about all signals, frequencies and orders of conversion", "anchors": ["hermespy/simulation/rf/blocks/mixers.py:Mixer", "hermespy/simulation/rf/blocks/mixers.py:IdealMixer", "hermespy/simulation/rf/blocks/x4.py:X4", "hermespy/simulation/rf/signal.py:RFSignal"]}
{"id": "C84", "title": "Sums, splits, phase shifts, sources and ramps", "statement": "A sum block outputs the sum of all its streams at the frequency of the first, without comparing frequencies. A split with one output is the identity; with more outputs it raises ValueError for every signal. A phase shifter rotates every sample by its phase, keeps amplitudes and ignores its configured number of quantization bits. A source outputs a constant amplitude at its own frequency, or at the device's if it has none, whatever its phase noise. A rising ramp consists of equal intervals of floor(interval*rate) samples of which the first floor(bandwidth/slope*rate) have unit amplitude and the rest are silent; from sample to sample it turns with a linearly rising frequency that stays within half the bandwidth around the carrier. Falling ramps are accepted but are either silent or raise ValueError; a slope of zero raises ZeroDivisionError.", "quantifier": "Every signal with any number of streams and samples, all phases, phase noises, rates, bandwidths, slopes, intervals and chirp counts", "why_tests_cant": "Tests check a handful of configurations; amplitude and frequency bounds hold for all real parameters, and the failing configurations are missed since splits with several outputs and falling slopes are never executed", "anchors": ["hermespy/simulation/rf/blocks/sum.py:Sum", "hermespy/simulation/rf/blocks/split.py:Split", "hermespy/simulation/rf/blocks/shift.py:Shift", "hermespy/simulation/rf/blocks/source.py:Source", "hermespy/simulation/rf/blocks/ramp.py:RampGenerator", "hermespy/simulation/rf/noise/phase_noise.py:OscillatorPhaseNoiseRealization.add_noise"]}
{"id": "C85", "title": "Noise levels and noise added by blocks", "statement": "Accepted noise levels yield non-negative powers; thermal noise and noise densities are proportional to the bandwidth while signal-to-noise ratios ignore it. For a signal-to-noise level the ratio of the reference power scaled by the latest channel sample to the noise power is the configured ratio, after any history of channel samples. Noise of a realization is independent of the signal: every sample gets sqrt(power/2) times the realization's unit sample, so that two signals keep their difference; a power of zero leaves the signal unchanged and negative powers raise. Blocks reject any other number of streams. The reported noise power is that of the last noisy block, not the sum, and is forgotten by later blocks that copy the signal.", "quantifier": "Every level, bandwidth, history of channel samples, noise realization and signal of any shape", "why_tests_cant": "Random noise makes exact tests impossible; independence from the signal, proportionality and the history of channel samples range over all signals and histories", "anchors": ["hermespy/simulation/rf/noise/level.py:ThermalNoise", "hermespy/simulation/rf/noise/level.py:N0", "hermespy/simulation/rf/noise/level.py:SNR", "hermespy/simulation/rf/noise/model.py:AWGNRealization.add_to", "hermespy/simulation/rf/block.py:RFBlock.propagate"]}
{"id": "C86", "title": "Frames of single carrier waveforms keep every data and reference symbol", "statement": "The preamble, pilot, data and postamble positions of a frame partition it: a pilot follows every pilot_rate data symbols until max(0, num_data_symbols // pilot_rate - 1) pilots are placed. place() writes the given data symbols and the reference symbols in order to their positions, leaves no position of the frame undefined, and pick() of the frame returns the data symbols. A wrong number of data symbols raises ValueError, except for a single symbol, which is silently repeated over all data positions. pilot_symbols(n) repeats the configured sequence periodically, or raises RuntimeError if that is needed but not allowed. Setting the modulation order, even to its current value, discards a configured pilot sequence.", "quantifier": "all numbers of preamble, data and postamble symbols, all pilot rates, all symbols, pilot sequences and lengths", "why_tests_cant": "Positions of pilots depend on divisions of all combinations of frame sizes and rates; tests fix a few frames, and an uninitialised position may contain the expected value by chance.", "anchors": ["hermespy/modem/waveform_single_carrier.py: FilteredSingleCarrierWaveform.place, pick, _pilot_symbol_indices, _data_symbol_indices, modulation_order", "hermespy/modem/waveform.py: ConfigurablePilotWaveform.pilot_symbols"]}
{"id": "C87", "title": "Pulse shaping of single carrier waveforms: which symbols come back", "statement": "Demodulating a modulated frame returns each symbol as the sum of all symbols weighted with the response of the transmit and receive filter at their distance, so all frames are recovered if and only if the filters fulfil Nyquist's criterion at the sampling instants. Rectangular and FMCW pulses do at every oversampling and chirp length, raised cosine pulses of any roll-off and filter length do without oversampling, and their transmit pulse (even filter length) vanishes at all other symbol instants at any oversampling. Raised cosine pulses with oversampling (the receiver filters again), odd filter lengths with oversampling and root raised cosine pulses do not return the symbols. Modulated frames have the announced number of samples; the announced duration is that of frames of rectangular pulses, but not of FMCW frames, and ignores the guard interval. The pilot signal is the beginning of the frame, except for FMCW waveforms with several preamble symbols.", "quantifier": "all symbols and frame lengths, oversampling factors, filters, chirp lengths, roll-off factors, filter lengths and bandwidths", "why_tests_cant": "Recovery of arbitrary long frames is a statement on all convolutions and trigonometric identities at all symbol instants; tests compare few frames with a tolerance.", "anchors": ["hermespy/modem/waveform_single_carrier.py: FilteredSingleCarrierWaveform.modulate, demodulate, pilot_signal, samples_per_frame, frame_duration, RolledOffSingleCarrierWaveform, RaisedCosineWaveform, RootRaisedCosineWaveform, RectangularWaveform, FMCWWaveform"]}
{"id": "C88", "title": "Least squares estimation and zero forcing equalize flat channels", "statement": "The least squares channel estimate at a reference symbol is the quotient of received and transmitted symbol. A channel changing linearly over the frame is estimated exactly between the first and the last reference symbol and held constant outside. Without reference symbols estimation raises ValueError. For filters fulfilling Nyquist's criterion and at least one reference symbol, placing, modulating, multiplication with any non-zero complex gain, demodulating, estimating, equalizing by zero forcing and picking returns the data symbols.", "quantifier": "all frames, data and non-zero reference symbols, all pulses fulfilling the criterion, all non-zero complex gains", "why_tests_cant": "The statement composes six stages over all frame layouts, symbols and complex gains; tests fix a channel and accept approximate symbols.", "anchors": ["hermespy/modem/waveform_single_carrier.py: SingleCarrierLeastSquaresChannelEstimation.estimate_channel", "hermespy/modem/waveform.py: ZeroForcingChannelEqualization.equalize_channel"]}
{"id": "C89", "title": "Chirp frequency shift keying returns the transmitted bits when its chirps are distinct", "statement": "unmap(map(bits)) returns the bits of any whole number of symbols. A modulated frame consists of the chirps of the pilot symbols 0, 1, ..., repeated periodically, followed by one chirp of constant magnitude per data symbol; the samples of the guard interval are not silent but uninitialised. Demodulation ignores the guard interval and returns the symbols after any non-zero complex gain, and despite noise below half the distance of the chirps' correlations. Without noise all frames are recovered if and only if all chirps are distinct, which holds by default if a chirp has at least as many samples as the modulation order, and for every positive frequency difference as long as no chirp leaves the bandwidth within its first sample. For shorter chirps or larger frequency differences, which the setters accept, different symbols may share a chirp.", "quantifier": "all bits, symbols, modulation orders, chirp durations, bandwidths, oversampling factors, frequency differences, gains and noise samples", "why_tests_cant": "Distinctness of all chirps and detection after every gain and noise are statements on real parameters and all frames; tests use one parametrization.", "anchors": ["hermespy/modem/waveform_chirp_fsk.py: ChirpFSKWaveform.map, unmap, modulate, demodulate, pilot_signal, _prototypes, samples_in_chirp, samples_per_frame, frame_duration"]}
{"id": "C90", "title": "Correlation synchronization finds exactly the frames starting with the pilot", "statement": "Synchronizing a sampled signal to frames by correlation with the waveform's pilot: a pilot received in otherwise silent streams, with any nonzero gain, is reported at exactly its offset, provided its correlation with shifted copies of itself stays below nine tenths of its energy; more generally, if the correlation reaches nine tenths of its maximum exactly at a set of offsets at least eight tenths of a frame apart, exactly these are reported. The result does not depend on the gain of the signal. Frames reported for a signal of at least one frame lie entirely within the signal, and those not moved to its edges are in order and at least eight tenths of a frame apart. Empty signals hold no frames; a missing pilot is a runtime error and frames of less than two samples a value error. The configured threshold and guard ratio have no effect, a one-sample pilot in the first sample is missed, and for signals shorter than a frame the reported index may lie behind the end of the signal.", "quantifier": "all signals with any number of streams and samples, all pilots, frame lengths, offsets and gains", "why_tests_cant": "tests synchronize a handful of random signals with one pilot; the guarantee ranges over all pilots, offsets and gains", "anchors": ["hermespy/modem/waveform_correlation_synchronization.py: CorrelationSynchronization.synchronize, threshold, guard_ratio"]}
{"id": "C91", "title": "Matched filter radars show echoes at their distance and velocity", "statement": "A joint communication and sensing operator correlating received samples with its transmission: if the samples of a direction are an echo of the transmission from an object at a distance whose round trip takes a whole number of samples, between twice the minimum and the maximum range, moving with one of the velocities of the cube, then the cell of exactly this distance and velocity holds the squared gain times the squared energy of the transmission per sample, and no other cell of the direction holds more; silent directions are empty. The range axis consists of exactly the distances of whole samples between twice the minimum range and the maximum range; the velocity axis covers the span between the negative and positive maximum in equal steps of one to two times the configured resolution, if the span is at least one resolution. Receptions always use the latest of any history of transmissions and are refused before the first. Echoes between one and two times the minimum range are dropped, a resolution coarser than the span leaves only the negative maximum velocity, and with several transmit antennas all directions of the cube show the same values.", "quantifier": "all transmissions, gains, delays, velocities, sampling rates, carrier frequencies, range and velocity settings, beamformers and histories of transmissions", "why_tests_cant": "tests place one target and compare the strongest range bin; the claim compares all cells for all transmissions and targets", "anchors": ["hermespy/jcas/matched_filtering.py: MatchedFilterJcas._receive, notify_transmit_callbacks, range_resolution, max_range, max_velocity", "hermespy/radar/radar.py: RadarBase._receive_beamform, min_range"]}
{"id": "C92", "title": "Continuous wave radars resolve range and velocity", "statement": "An FMCW frame carries exactly the advertised energy; if chirps and intervals last whole numbers of samples, every interval starts with the same chirp and the frame has the advertised length, and chirps longer than their interval raise a RuntimeError. In a frame in which nothing moves, only the Doppler cell labelled zero holds power (for even numbers of chirps; for odd numbers its label is half a cell too large), whatever decimation filter is applied. A common frequency shift f between chirps puts all power in the cell labelled -f/2, so receding objects, which the radar channels give positive shifts, appear with negative labels. The echo of a frame has its strongest cell at its beat frequency; the label of this cell is the object's distance times n/(n-1) for n range cells, and additionally times bandwidth over converter rate if a converter rate is configured. Chirps that last fractional numbers of samples shift the intervals against those the estimator expects, chirps longer than their interval by less than a sample are sent but cannot be processed, and the advertised velocity resolution is half the distance of neighbouring velocity cells.", "quantifier": "all numbers of chirps, durations, intervals, converter rates, bandwidths, oversampling factors, delays, gains, frequency shifts and received samples", "why_tests_cant": "tests use one waveform with one target and compare against tolerances wider than a cell", "anchors": ["hermespy/radar/fmcw.py: FMCW.ping, FMCW.estimate, FMCW.range_bins, FMCW.relative_doppler_bins, FMCW.energy, FMCW.samples_per_frame", "hermespy/radar/radar.py: Radar._transmit, Radar._receive, Radar.velocity_resolution"]}
{"id": "C93", "title": "Radars processing communication frames find echoes", "statement": "A joint communication and sensing radar dividing received by transmitted OFDM symbols shows the echo of its last transmission strongest in the range cell labelled with the object's distance and in the Doppler row of the frequency shift, with a value of gain times used symbols per subcarrier, and no cell of that line exceeds it; words delayed by whole samples within their cyclic prefix produce exactly such echoes. The label of the Doppler row exceeds half the frequency shift by (words + words mod 2 - 1)/(4 frame durations), so no cell is ever labelled zero and static objects appear to move. Receiving before transmitting raises a RuntimeError. A positive minimum range makes every reception of two or more subcarriers raise an error instead of removing close ranges.", "quantifier": "all grids of transmitted symbols including unused ones, gains, delays, frequency shifts, bandwidths, frame durations and numbers of lines", "why_tests_cant": "tests only check that a target at zero velocity can be seen in the cube with a zero minimum range", "anchors": ["hermespy/jcas/ofdm_radar.py: OFDMRadar._receive, OFDMRadar.range_resolution, OFDMRadar.relative_doppler_resolution, OFDMRadar.max_relative_doppler", "hermespy/modem/waveforms/orthogonal/ofdm.py: OFDMWaveform._forward_transformation, OFDMWaveform._backward_transformation"]}
{"id": "C94", "title": "Geometry of radar paths", "statement": "Over a radar channel the delay of a path is its length (transmitter to target to receiver, or transmitter to receiver for interference) divided by the speed of light; no echo arrives before the line of sight. The relative velocity of a target path is the rate at which its length grows, so an echo of a receding target is shifted to a higher frequency, while that of an interference path is the rate at which its length shrinks: the two conventions are opposite. A device that sees its own echo gets twice the radial velocity and twice the distance. Velocities are bounded by those of the ends of the path, and a path whose ends coincide is refused. Delay and velocity are the same when transmitter and receiver are exchanged, and the antenna response is transposed if all antennas transmit and receive. The power between any two antennas is at most what the radar equation (or free space, for interference) allows, at most one without attenuation, and it is attained with the two-way phase by an ideal or linearly polarised antenna that hears itself.", "quantifier": "all positions, velocities, orientations, antenna arrays, carriers, cross sections and phases", "why_tests_cant": "lengths, derivatives and bounds range over the real positions and velocities of three bodies and over all arrays", "anchors": ["hermespy/channel/radar/radar.py RadarTargetPath.propagation_delay, relative_velocity, propagation_response", "hermespy/channel/radar/radar.py RadarInterferencePath.propagation_delay, relative_velocity, propagation_response", "hermespy/channel/radar/radar.py RadarPath.doppler_shift"]}
{"id": "C95", "title": "Propagation over radar channels", "statement": "A signal propagated over a radar channel is the square root of the channel gain times the sum of the echoes of all paths, each delayed by the whole number of samples in its delay, weighted with its antenna response and turning with its Doppler shift from the time of the sample; the output is long enough for every echo provided that the paths do not shrink too fast (at most half the speed of light for signals of up to a second); otherwise propagation can fail with a ValueError. Propagation is linear in the signal and independent of the order of the paths. The channel state applied to the signal gives the same echoes except those later than the requested number of taps. The null hypothesis of a sample taken at time zero lacks exactly the echoes of the non-static paths, while at later times the remaining echoes have other phases. Interference is exchanged by all antennas, so devices some of whose antennas only transmit or only receive are refused with a ValueError.", "quantifier": "all lists of paths, gains, devices, bandwidths, carriers, times, signals and numbers of taps", "why_tests_cant": "sums over arbitrarily many paths, antennas and samples, for real delays and velocities", "anchors": ["hermespy/channel/radar/radar.py RadarChannelSample._propagate, state, null_hypothesis", "hermespy/channel/radar/radar.py RadarPath.add_propagation, add_state"]}
{"id": "C96", "title": "Radar targets", "statement": "A single target channel is created exactly when its range is not negative or an ordered span of such, azimuth, zenith and speed are numbers or ordered pairs, and cross section and decorrelation distance are not negative; otherwise a ValueError is raised. Its target is placed at a range, azimuth and zenith within the configured values and moves radially with a speed within its values (or with the given vector); range and direction are seen from the origin of the scene, not from the receiver. It is never part of the null hypothesis and there are no paths when it does not exist. A range of zero is accepted, but a device at the origin is then refused with a ValueError. A channel with several targets yields one path for each of its targets, at the position and with the velocity the target has at that time, followed by one static interference path exactly when interference is enabled and the devices are at different positions. Sampling fails exactly when a device is at the translation of a target's inverted pose (the mirrored position), so that a target at a device is not noticed and a target at the mirrored position is refused; for the same reason cross sections are asked for other directions than those in which the target sees the devices. Targets are kept without repetition and none is forgotten; realizations keep their interference and attenuation flags but include targets added later.", "quantifier": "all configurations, random draws, poses, device positions, times and histories of added targets and realizations", "why_tests_cant": "real configurations and draws, arbitrary poses and arbitrarily long histories", "anchors": ["hermespy/channel/radar/single.py SingleTargetRadarChannel.__init__, target_range, target_azimuth, target_zenith, target_velocity, SingleTargetRadarChannelRealization._generate_paths", "hermespy/channel/radar/multi.py RadarTarget.sample, VirtualRadarTarget, PhysicalRadarTarget, MultiTargetRadarChannel.add_target, MultiTargetRadarChannelRealization._generate_paths, FixedCrossSection"]}
{"id": "C97", "title": "Spatially consistent random variables", "statement": "As long as each variable belongs to one generator, the scalars of a generator are divided among its registered variables without overlap and without a rest, whatever the order of registrations and repetitions; a variable that is registered at a second generator reads scalars of another variable of the first one. After a realization every registered variable can be read at any pair of positions, as many values as its shape holds; gaussian variables are scaled and shifted, uniform ones lie between zero and one, boolean ones tell whether the scalar is positive. Variables registered later are refused with a ValueError and do not disturb the others. With an infinite decorrelation distance variables are the same everywhere; otherwise they are bounded by the square root of twice the number of sinusoids and change with both positions at most in proportion to the distances travelled. Swapping the positions gives other values. The search of radial velocities ends for every positive distance, whatever the number of candidates: each candidate has exactly one velocity in its interval, and velocities grow with the candidates from zero; a distance of zero raises a ZeroDivisionError and for a negative one the search never ends.", "quantifier": "all shapes, registrations, generators, distances, numbers of sinusoids, draws and positions", "why_tests_cant": "arbitrarily long registration histories, real positions and distances, termination of an unbounded loop", "anchors": ["hermespy/channel/consistent.py ConsistentVariable.sample, ConsistentGenerator.add_variable, ConsistentGenerator.realize, ConsistentGenerator.__sample_cdf", "hermespy/channel/consistent.py DualConsistentRealization.sample, StaticConsistentRealization.sample, ConsistentGaussian, ConsistentUniform, ConsistentBoolean"]}
{"id": "C98", "title": "Radar detection evaluators", "statement": "A detection is counted exactly when the point cloud of the last reception holds a point; before the first reception, or without a detector, a RuntimeError is raised. The operating characteristic of a grid section is made of the drops added for it and no others: at equally spaced thresholds from the smallest to the largest value it holds the fractions of drops whose largest power reaches the threshold with and without target. Both fractions are probabilities that decrease with the threshold; the curve starts with both certain and its last threshold is still reached; it is the same for every order of the drops and for every gain and offset of the powers; a target that never lowers the power is never detected more rarely than falsely detected. Hypotheses further apart than a step of the thresholds are told apart by some threshold, but perfectly separable ones need not be. Scenarios and recorded campaigns are compared drop by drop, up to the shorter campaign and the requested number of drops, and none are refused with a ValueError; a single replayed scenario never yields a curve, the evaluator's number of thresholds is ignored in favour of 101, and the plot shows two points made of the first two thresholds rather than the curve. The root mean square error of a section is that over all pairs of detections and targets of the same drops, none without pairs (as a scalar of one drop a ZeroDivisionError); it is zero exactly when all paired positions agree, so that two targets detected exactly where they are have a positive error, and a radar away from the origin is reported to be off by its distance from it.", "quantifier": "all histories of receptions and drops, sections, powers, numbers of thresholds, campaigns, detections and targets", "why_tests_cant": "real powers and positions, arbitrarily long histories of drops and arbitrary numbers of thresholds", "anchors": ["hermespy/radar/evaluators.py DetectionProbEvaluator.evaluate, RocEvaluation.artifact, RocEvaluationResult.add_artifact, RocEvaluationResult.to_array, RocEvaluationResult._update_visualization", "hermespy/radar/evaluators.py ReceiverOperatingCharacteristic.initialize_result, FromScenarios, FromScenario, FromFile", "hermespy/radar/evaluators.py RootMeanSquareArtifact, RootMeanSquareEvaluation, RootMeanSquareErrorResult, RootMeanSquareError.evaluate"]}
{"id": "C99", "title": "Sampling channel realizations and notifying hooks", "statement": "For every history of a channel, a sample or reciprocal sample of a realization notifies, each exactly once, the hooks that were registered when the realization was created and whose transmitter and receiver (if any) are those of the sample, and uses the gain the channel had then; hooks added later are not notified and removed ones still are; refused requests notify nobody. The last cached realization is remembered and an AttributeError is raised before there is one. Gains are never negative and negative ones are refused with a ValueError. A link between devices connects their states at the requested time (zero by default), with the carrier frequency and bandwidth given by position or else those of the transmitter; given by name they are ignored and None by position raises a TypeError; devices and states do not mix (ValueError). States are linked as they are, at time zero unless told otherwise even if they were taken at another time. Reciprocal samples of states are taken at the time of the sample, those of devices at time zero unless told otherwise. Without energy the received signal is empty, without checking streams; otherwise signals must have as many streams as the transmitter has antennas (ValueError), and the received one is labelled with carrier and bandwidth of the link rather than its own. Propagating over the channel itself keeps the labels, and notifies hooks and remembers its realization even if the signal is refused.", "quantifier": "all histories of hooks, gains, realizations, samples and propagations, all devices, states, times and arguments", "why_tests_cant": "arbitrarily long histories, arbitrary numbers of hooks and realizations, and real times, carriers and gains", "anchors": ["hermespy/channel/channel.py ChannelSampleHook.__call__, ChannelRealization.sample, ChannelRealization.reciprocal_sample, ChannelSample.propagate", "hermespy/channel/channel.py Channel.add_sample_hook, Channel.remove_sample_hook, Channel.sample_hooks, Channel.realize, Channel.realization, Channel.gain, Channel.propagate"]}
{"id": "C100", "title": "Saved configurations restore every parameter except a known list", "statement": "For 160 library classes (codes, waveforms, precoders, antennas, RF blocks, channels, devices, operators, evaluators, drops): saving an object whose fields hold values of their types never fails, and loading the file yields an object equal field by field, at every depth, except for the 93 listed fields, which come back as a fixed default, as NaN for None, with the value they were following, or with another array type. A second round trip changes nothing more. The exceptions, which fail: objects of six unregistered classes and every sequence containing one cannot be saved; a bit error evaluator cannot be saved; TDL channels of types D and E, realizations of fading channels, modems with AFF3CT codes and SNRs referring to an operator are saved but cannot be loaded; a random delay channel with an integer delay cannot be saved.", "quantifier": "all objects of the modelled classes, nested to any depth, with any field values of their types", "why_tests_cant": "A round trip test exercises one object of one class with the values the test author chose; it cannot show that no other field, nesting or class loses information.", "anchors": ["hermespy/core/factory.py:HDFSerializationProcess", "hermespy/core/factory.py:HDFDeserializationProcess", "hermespy/core/factory.py:Factory", "hermespy/simulation/simulated_device.py:SimulatedDevice", "hermespy/modem/modem.py:TransmittingModem", "hermespy/channel/fading/tdl.py:TDL", "hermespy/channel/fading/fading.py:MultipathFadingRealization", "hermespy/modem/evaluators.py:CommunicationEvaluator"]}
{"id": "C101", "title": "Calibrations belong to exactly the device that shows them", "statement": "After any sequence of creating physical devices and calibrations, assigning a device's antenna, delay or leakage calibration, and assigning a calibration's device: every device shows one calibration of each kind and that calibration names the device; no calibration is shown by two devices; assigning moves a calibration and leaves a default behind at its previous owner; all setters return. The exceptions, which fail: a calibration that was replaced at its device still names that device, so attaching it again does nothing, and attaching it elsewhere silently replaces the calibration currently shown by the device with a default.", "quantifier": "all histories of creations and assignments, any number of devices and calibrations", "why_tests_cant": "Tests assign one calibration to one device; the mutual recursion of the setters must keep two object graphs consistent for every history.", "anchors": ["hermespy/hardware_loop/physical_device.py:PhysicalDevice.antenna_calibration", "hermespy/hardware_loop/physical_device.py:PhysicalDevice.delay_calibration", "hermespy/hardware_loop/physical_device.py:PhysicalDevice.leakage_calibration", "hermespy/hardware_loop/physical_device.py:Calibration.device"]}
{"id": "C102", "title": "Delay and antenna calibrations undo what was estimated", "statement": "A delay calibration of tau>0 moves received samples forward by the nearest whole number of samples to tau times the sampling rate, filling with zeros, on the selected ports only; one of tau<0 prepends as many zero samples to transmissions; the other direction is untouched. The delay estimation returns the exact delay of hardware that delays and positively scales its pulse. Antenna calibration weights estimated from noise-free probes turn the transmit or receive phases of every antenna into positive real gains, and weights multiply port by port. The exceptions, which fail: delays below half a sample make reception fail; pulses returned with a negative real part yield a negative estimate; a stronger second port adds the window length to the estimate; opposite reference phases yield a zero weight; triggering the same signal several times applies the transmit weights repeatedly.", "quantifier": "all signals, ports, rates, delays, hardware gains and numbers of probes and iterations", "why_tests_cant": "Tests use a single delay and compare one correction; the rounding, boundary and aliasing behaviour must hold for every delay, rate and signal.", "anchors": ["hermespy/hardware_loop/physical_device.py:DelayCalibrationBase.correct_transmit_delay", "hermespy/hardware_loop/physical_device.py:DelayCalibrationBase.correct_receive_delay", "hermespy/hardware_loop/physical_device.py:PhysicalDevice.trigger_direct", "hermespy/hardware_loop/calibration/delay.py:DelayCalibration.Estimate", "hermespy/hardware_loop/calibration/antennas.py:ScalarAntennaCalibration"]}
{"id": "C103", "title": "Leakage calibrations remove exactly the leakage they describe", "statement": "If receptions are the wanted samples plus the transmitted signals convolved with the calibrated impulse responses, starting at any sample of the reception, and there are at least as many receiving as transmitting ports, removing the leakage returns the wanted samples of every port. A least squares estimation on hardware that only leaks, with impulse responses no longer than the probing sequence, returns the exact responses for any positive number of probes, so calibrating and removing leaves exactly the rest. Other rates and carriers are refused. The exceptions, which fail: with more transmitting than receiving ports the leakage of the additional ports stays; responses with fewer transmitting ports raise an IndexError; leakage arriving after the end of the reception may raise a ValueError; leakage that began before the reception stays in the last samples; selecting several ports on both sides is always refused; a calibration estimated for one receiving port corrects the first port instead; devices with negative delay calibration cannot be calibrated.", "quantifier": "all responses, signals, numbers of ports, samples and probes, delays and rates", "why_tests_cant": "Tests calibrate one simulated device and compare powers; exactness depends on the zero-free spectrum of the probing sequences and on index arithmetic for every delay and length.", "anchors": ["hermespy/hardware_loop/calibration/leakage.py:SelectiveLeakageCalibration.remove_leakage", "hermespy/hardware_loop/calibration/leakage.py:SelectiveLeakageCalibration.LeastSquaresEstimate"]}
{"id": "C104", "title": "Parameters of multipath fading channels", "statement": "A multipath fading channel accepts exactly the profiles of at least one tap whose delays, powers and rice factors agree in number and are not negative, orders the taps by delay, and each of its samples has one path per tap with the tap's delay, power and rice gains. Exponential profiles decay exponentially at the given interval, keep exactly the taps of at least 1e-5 relative power, and continued without end have exactly the configured rms delay; the truncated channel's spread is always smaller, and its power is not normalised. Tabulated profiles (COST 259, 5G TDL) have positive powers adding up to one and differing by the tabulated decibels, at delays proportional to the configured rms delay. Standard antenna correlations are positive semidefinite covariances of unit power for one, two and four antennas, and other counts are refused. Deviations: a configured line of sight angle and a later change of the number of sinusoids have no effect on samples; profile D gives the line of sight less than half of the power; correlated antennas have the square of the configured correlation; only ten antennas per side exist, and correlations fail for larger arrays and for arrays mixing transmitting and receiving antennas.", "quantifier": "all delay, power and rice factor lists, tap intervals, rms delays, decibel tables, correlation factors, hermitian covariances, antenna counts and random draws", "why_tests_cant": "The spread is the limit of infinite series, the positive semidefiniteness ranges over all vectors and factors, and the ineffective settings concern every draw; unit tests compare a few constructed objects.", "anchors": ["hermespy/channel/fading/fading.py: MultipathFadingChannel.__init__, MultipathFadingRealization._sample, CustomAntennaCorrelation", "hermespy/channel/fading/exponential.py: Exponential", "hermespy/channel/fading/tdl.py: TDL", "hermespy/channel/fading/cost259.py: Cost259", "hermespy/channel/fading/correlation.py: StandardAntennaCorrelation"]}
{"id": "C105", "title": "Noise that receivers actually see", "statement": "White noise added to a signal has, at every sample, exactly the mean power of its realization and adds to the sample's power. Noise can be added to a dense signal; a signal of several non-empty blocks, or of one block that starts late, raises ValueError. All receivers of a device see the very same noise, so that noise at different receivers is fully correlated. The noise power reported to a receiver is that before decoding; the actual one is multiplied by the squared weights of the decoded stream. A configured signal-to-noise ratio is met exactly behind ideal channels with one transmit antenna or equally many antennas, and in the mean over the phases of fading channels; two equal streams received by one antenna exceed it, and delay channels miss it by the factor of their path gain because they announce an amplitude factor as energy scale. Levels per bit and per symbol must be positive, need a waveform, and differ by the number of bits per symbol; they refer to critical sampling, so that a receiver averaging rectangular pulses realizes the configured ratio times the oversampling factor.", "quantifier": "all signals, numbers of streams and samples, all noise powers, all finite ensembles of white draws, all decoding weights and port selections, all channel gains, path gains, fading profiles and levels, all oversampling factors", "why_tests_cant": "Tests draw one noise sequence and compare its power to two digits; the laws hold for every ensemble, and the mismatch between announced energy scales and actual propagation only shows when channel, noise level and receiver are combined.", "anchors": ["hermespy/simulation/rf/noise/model.py:AWGNRealization.add_to", "hermespy/simulation/simulated_device.py:SimulatedDevice._generate_receiver_input", "hermespy/simulation/rf/noise/level.py:SNR.get_power", "hermespy/simulation/modem/noise.py:CommunicationNoiseLevel", "hermespy/simulation/modem/noise.py:EBN0", "hermespy/simulation/modem/noise.py:ESN0", "hermespy/modem/waveform.py:CommunicationWaveform.bit_energy", "hermespy/channel/delay/delay.py:DelayChannelSample.expected_energy_scale", "hermespy/channel/ideal.py:IdealChannelSample.expected_energy_scale", "hermespy/channel/fading/fading.py:MultipathFadingSample.expected_energy_scale"]}
{"id": "C106", "title": "Phase noise of oscillators", "statement": "Oscillator constants must not be negative. Phase noise keeps the dimensions of a signal, the magnitude of every sample and the energy of every stream, and an oscillator without noise constants leaves signals unchanged. The flicker filter has positive growing coefficients whose convolution with themselves gives the weights of a threefold sum, as the transfer function (1-1/z)^(-3/2) demands. The mean square phase at sample n is K0 fs + 4 pi^2 K2 (n+1)/fs + 8 pi^3 K3/fs^2 times the sum of the squared filter coefficients, and exceeds every bound if there is a random walk.", "quantifier": "all oscillator constants, sampling rates, signals and sample indices, all finite ensembles of uncorrelated unit variance draws", "why_tests_cant": "Tests compare magnitudes of one drawn signal up to tolerances that accept anything; moments of the phase at every sample and the infinite impulse response of the filter are not testable by samples.", "anchors": ["hermespy/simulation/rf/noise/phase_noise.py:OscillatorPhaseNoiseRealization", "hermespy/simulation/rf/noise/phase_noise.py:OscillatorPhaseNoise"]}
{"id": "C107", "title": "Power, peak-to-average ratio and extraction of signals", "statement": "For every history of an operator, a power evaluator or signal extractor works on the signal of the latest transmission or reception that notified callbacks since it was created, and raises RuntimeError if there is none; an extractor of an operator that both transmits and receives only ever sees transmissions. The power of a dense signal is the mean squared magnitude per stream; that of a sparse signal is the unweighted mean of its blocks' powers, which is the documented mean over the stored samples only if all blocks have the same length, and its energy is a single number instead of one per stream. The peak-to-average power ratio is the mean over the streams of largest over mean squared magnitude of the samples, independent of the representation; it lies between one (exactly for constant power) and the number of samples (exactly for one non-zero sample per stream), is invariant under scaling, grows by (n+k)/n for k samples of silence, is NaN if one stream is silent and raises ValueError without samples. It looks at the latest output, or the first signal of the latest input, and raises AttributeError, not the documented RuntimeError, before. Extracted signals are kept in order per grid point; the array of dense signals has the smallest sufficient shape, holds every sample at its place and zeros elsewhere; with one sparse signal the conversion fails.", "quantifier": "all targets, histories, signals, streams, blocks, grids and artifacts", "why_tests_cant": "tests evaluate single dense signals once; bounds, invariances, different block lengths and sequences of artifacts of different shapes cannot be enumerated", "anchors": ["hermespy/core/evaluators.py: ReceivePowerEvaluator, TransmitPowerEvaluator, PAPR, PAPREvaluation.artifact, SignalExtractor, ExtractedSignals.to_array", "hermespy/core/signal_model.py: SignalBlock.power, SignalBlock.energy, SparseSignal.power, SparseSignal.energy"]}
{"id": "C108", "title": "Recording, replaying and campaigns of scenarios", "statement": "For every history of calls, a scenario holds an open recording exactly in record mode and an open replay exactly in replay mode, so drops never fail for lack of one; devices can be added in default mode only. A recording stores in order exactly the drops generated without timestamp until it is stopped or a replay starts, after those the campaign already held (none if overwriting), touches no other campaign or file, and num_drops counts them; stopping and recording again appends. Drops generated with a timestamp are not recorded, and choosing another campaign while recording changes the label and resets the count while drops still go to the first campaign. Recording outside of default mode raises and changes nothing, but a recording refused for the reserved campaign name has already emptied an overwritten file and leaves the scenario in record mode. A replay starts from any mode iff a file is known and holds more drops of the campaign than are skipped, returns the remaining number, and otherwise changes nothing (raising RuntimeError and ValueError the other way round than documented). The k-th drop requested is then recorded drop offset+k, each transmitter and receiver being told its recorded transmission or input exactly once; drops beyond the end raise IndexError. Choosing another campaign during a replay raises but rewinds it to the first drop, and num_drops is the number of drops replayed or skipped, not the recorded number as documented. Recording and replaying are inverse to each other.", "quantifier": "all scenarios, devices, files, campaigns, drops, offsets and histories of calls", "why_tests_cant": "tests record and replay a few drops in the expected order of calls; histories mixing recordings, replays, campaigns and refused calls cannot be enumerated", "anchors": ["hermespy/core/scenario.py: Scenario.add_device, Scenario.campaign, Scenario.record, Scenario.replay, Scenario.stop, Scenario.num_drops, Scenario.drop, Scenario.receive_operators, ReplayScenario._drop", "hermespy/simulation/scenario.py: SimulationScenario.drop", "hermespy/core/device.py: Device.receive_operators", "hermespy/core/drop.py: Drop"]}
{"id": "C109", "title": "Clusters of 3GPP cluster delay lines", "statement": "Sampling a cluster delay line between two devices raises RuntimeError iff they are at the same place; delays are normalised to start at zero or at the time of flight. Every sample has between one and the drawn number of clusters, each with one delay and one power. Delays are those of equation 7.5-1 of TR 38.901, ascending from zero, without line of sight and with it for Rice factors of at least -20 dB; at -25 dB and less they are negative, and from 0 dB up each later cluster is earlier than equation 7.5-3 requires (wrong coefficients). Powers are positive, are those of equations 7.5-5 to 7.5-8 times path loss and add up to the path loss except for what weak clusters removed contributed; with equal shadowing they never increase with delay. Clusters removed are those more than 25 dB weaker than the strongest one with line of sight from 0 dB on, but without it the reference is the first cluster. Powers and delays of a sample belong to the same cluster iff the clusters removed are the last ones, which fails in general. Energy grows with the square of the linear gain; oxygen absorption takes 0.2 dB per metre at every carrier frequency; shadow fading has no effect. Angular spreads are real, zero iff all paths point the same way, and invariant under rotation and scaling of powers. Fixed profiles ignore the gain, add up to more than one without line of sight, and amplify cross-polarized rays where scenarios attenuate them by the cross-polarization ratio.", "quantifier": "all delay spreads, delay scalings, Rice factors, draws, shadowings, path losses, distances, carriers, gains, and all sets of paths", "why_tests_cant": "tests fix the seed and check shapes of samples; every draw of delays and shadowing gives another set of clusters", "anchors": ["hermespy/channel/cdl/cluster_delay_lines.py: ClusterDelayLineRealization._cluster_delays, _cluster_powers, _sample, ClusterDelayLineSample.expected_energy_scale, ClusterDelayLineSample._angular_spread, DelayNormalization", "hermespy/channel/cdl/cdl.py: CDLType, CDLRealization, CDL"]}
{"id": "C110", "title": "Propagation over the rays of cluster delay lines", "statement": "Every signal with one stream per transmitting antenna propagates over every cluster delay line sample of at least twenty rays per cluster and no negative delays: the output has one stream per receiving antenna, is longer by the largest delay rounded up and is linear in the signal, the superposition of one delayed copy per arriving ray and of the line of sight. Samples of fewer rays raise IndexError. Rays of the third and later clusters arrive once, at the delay of their cluster. Those of the first two clusters do not arrive as TR 38.901 requires: half of the rays of the first and six of those of the second arrive three times, all others never, so that the energy is 1.5, 0.9 and 1 times the cluster powers and equals the expected energy scale iff the second cluster is five times as strong as the first. Interpolations other than the nearest sample yield silence. The channel state with enough taps, applied to a signal, is the propagated signal; with fewer taps exactly the copies of later taps are missing and the last tap is empty. Path loss and gain scale the rays but not the line of sight, which arrives at constant strength at any distance, and not at all from horizontally polarized transmitters. With a line of sight of Rice factor K the rays keep 1/(1+K) of their energy and the line of sight carries K/(1+K); its phase is that of its distance at first, but then turns as if devices that move apart came closer. Devices that move alike see a constant channel; movement rotates copies and keeps their strength, but the rotation restarts with every block of a signal and ignores the direction of departure. Reciprocal samples are an involution and the transposed channel without line of sight, without relative movement and with symmetric polarization matrices, not in general. Antenna patterns are evaluated towards a point one metre from the origin of the scene: correct for arrays at the origin, while arrays farther than a metre away see every ray in the half space facing the origin.", "quantifier": "all samples (clusters, rays, powers, delays, polarizations, Rice factors), antenna responses, poses, velocities, bandwidths, carriers, signals, numbers of samples and taps", "why_tests_cant": "tests compare propagation and channel state of a few drawn samples, which share the generator of the rays; a wrong ray enters both", "anchors": ["hermespy/channel/cdl/cluster_delay_lines.py: ClusterDelayLineSample._propagate, ClusterDelayLineSample.state, ClusterDelayLineSample.reciprocal, ClusterDelayLineSample.subcluster_indices, ClusterDelayLineSample.max_delay, ClusterDelayLineSample.expected_energy_scale", "hermespy/core/antennas.py: AntennaArrayBase.cartesian_array_response"]}
{"id": "C111", "title": "Path loss and line of sight of the 3GPP scenarios", "statement": "For positive carriers a link over an indoor office, indoor factory, urban microcell, urban macrocell or rural macrocell channel fails exactly if both devices are at the same position, and otherwise its path loss is a positive power factor that does not change if transmitter and receiver are swapped; carriers that are not positive, the default of devices, raise a ValueError except over rural macrocells. Without line of sight at least as much power is lost as with it, beyond one metre and one gigahertz every link attenuates (closer or lower it may amplify), indoor and urban losses before the breakpoint grow by a fixed number of decibels per decade, and moving away at constant heights loses power as long as the breakpoint of an urban scenario is not crossed; the loss is continuous there exactly if the devices' height difference is the one the formula assumes, so that two hand-held devices lose less behind it than before. Beyond the breakpoint rural macrocells lose more than the standard. Terminals inside buildings lose nothing at all. A line of sight is certain exactly up to 1.2 m (mixed office), 5 m (open office), 10 m (rural) of horizontal and 18 m (urban) of spatial distance and possible at every distance outside of factories; a draw that sees the other device also sees it from closer, except in open offices, where the line of sight may appear by moving away at 49 m. In urban macrocells it is less probable than in the standard, a terminal at the foot of a mast may lose it, and in factories with elevated base stations devices above the clutter, or at equal heights, never see each other.", "quantifier": "all scenarios, carriers, positions, heights, states and draws", "why_tests_cant": "Path loss and visibility depend on real distances, heights and carriers; unit tests evaluate single links or only check that a sample can be drawn.", "anchors": ["hermespy/channel/cdl/cluster_delay_lines.py:ClusterDelayLineRealization._sample", "hermespy/channel/cdl/indoor_office.py:IndoorOfficeRealization", "hermespy/channel/cdl/indoor_factory.py:IndoorFactoryRealization", "hermespy/channel/cdl/urban_microcells.py:UrbanMicrocellsRealization", "hermespy/channel/cdl/urban_macrocells.py:UrbanMacrocellsRealization", "hermespy/channel/cdl/rural_macrocells.py:RuralMacrocellsRealization"]}
{"id": "C112", "title": "Directions of the rays of cluster delay lines", "statement": "For every pair of devices at different positions and every number of clusters, each cluster gets twenty rays in each of the azimuths and zeniths of departure and arrival; the random coupling only permutes them, so that they are centred on the cluster's direction of TR 38.901 (scale of the closest number of clusters in the table, logarithm of its power over the strongest, sign and variation) with a root mean square of the cluster's spread. Large-scale angular spreads are positive and capped at 104 and 52 degrees. With a line of sight the first cluster is centred exactly on it in the coordinates of both devices, without it the strongest clusters are, up to variation and offset; weaker clusters are farther off on the side of their sign for Rice factors of at least -9.9 dB, while at -10 dB all zeniths flip. Departure and arrival are not independent as the standard requires: clusters differ at both ends by the same amount, times the ratio of the spreads. Angles are right in the scene only for devices that are not rotated: a transmitter turned by 180 degrees sends its first cluster away from the receiver. Zeniths are not wrapped: a cluster may arrive from more than 180 degrees, which reverses the horizontal part of the direction the standard would wrap it to.", "quantifier": "all poses at different positions, line of sight states, Rice factors, numbers, powers, signs and variations of clusters, spreads and couplings", "why_tests_cant": "The angles depend on random signs, variations and permutations, logarithms of powers and the poses of both devices; tests only check that a sample can be drawn and propagates.", "anchors": ["hermespy/channel/cdl/cluster_delay_lines.py:ClusterDelayLineRealization._ray_azimuth_angles", "hermespy/channel/cdl/cluster_delay_lines.py:ClusterDelayLineRealization._ray_zoa", "hermespy/channel/cdl/cluster_delay_lines.py:ClusterDelayLineRealization._ray_zod", "hermespy/channel/cdl/cluster_delay_lines.py:ClusterDelayLineRealization._sample", "hermespy/channel/cdl/cluster_delay_lines.py:ClusterDelayLineRealization._sample_large_scale_parameters"]}
{"id": "C113", "title": "OFDM frames over multipath channels and their ideal channel estimation", "statement": "Over every channel that does not change during a frame, each word of an OFDM frame whose cyclic prefix is at least as long as the echoes (number of taps at most one plus prefix plus the taps skipped by synchronisation) is received without interference: every symbol equals the sum over the transmit antennas of the sent symbol times the frequency response of the channel at its subcarrier, for any grid, subcarrier count, oversampling, DC suppression, leading pilot and guard sections. The ideal channel estimate equals that frequency response, cut off after as many taps as a word has samples, for every stream and transmit antenna, and zero forcing with it returns exactly what was sent wherever the response is not zero. The estimate ignores where the frame was found: for a frame starting f samples late, received symbols differ from the estimate by a phase proportional to frequency and f, down to the opposite sign. It loses the last tap that a prefix as long as the word admits, averages changing channels over the word, explains nothing of words with zero or no prefix, raises ValueError for every structure with a pilot section, RuntimeError before any channel was seen, and for fewer antennas than streams repeats the state of a single antenna or raises ValueError.", "quantifier": "every orthogonal frame structure without sample offsets, number of subcarriers, oversampling factor, grid of symbols, number of antennas, impulse response, synchronised start and delay", "why_tests_cant": "The equality holds for all grids and impulse responses only if prefix, window and transform lengths fit together; tests fix one frame and one channel and compare with tolerances.", "anchors": ["hermespy/simulation/modem/channel_estimation.py: IdealChannelEstimation._csi, OFDMIdealChannelEstimation.estimate_channel", "hermespy/modem/waveforms/orthogonal/ofdm.py: OFDMWaveform._forward_transformation, _backward_transformation", "hermespy/modem/waveforms/orthogonal/waveform.py: OrthogonalWaveform.modulate, demodulate", "hermespy/modem/waveform.py: ZeroForcingChannelEqualization.equalize_channel", "hermespy/core/channel.py: ChannelStateInformation.propagate"]}
{"id": "C114", "title": "Uploads, triggers and receptions of physical devices", "statement": "For every history of transmissions, triggers, directly played signals, noise estimations, receptions and setting changes of a physical device that receives what it sends: receiving without a signal hands each receiver its selected ports of the signal that was uploaded last when the device was triggered last, after removing the leakage of the last transmission; a call that raises leaves the device as it was; signals of another rate or number of streams raise ValueError; playing a signal directly succeeds exactly for signals at the device's carrier and rate and returns what was received, corrected if wanted; adaptive sampling sends the samples of a single operator unchanged at the device's rate and refuses operators of different rates. A USRP that hears itself returns its streams with the weights of both directions followed by zeros, long enough for the longest frame after the maximum delay. A dummy receives what it transmitted before its last trigger, or silence of that shape. The exceptions, which fail: the leakage of directly played signals is not what later receptions are corrected by; a directly played signal object comes back weighted, so that playing it again weights it twice, and a calibrated USRP weights it twice at once; receive() ignores the lowpass filter, which only process_input() applies; the constructor and deserialization ignore adaptive_sampling and lowpass_filter; without adaptive sampling the signal of a single operator is uploaded at its own rate and the following reception raises; only the first of several impinging signals is processed, and the routine shared by devices hands out a signal without samples for any number other than one; receptions a USRP collects in several parts lose all but the last; process_input() of a dummy takes the last transmission instead of the receive memory.", "quantifier": "every history of calls, signal, number of streams and samples, operator rates, port selections, calibration, coding and filter routine, and hardware where stated", "why_tests_cant": "Whether a reception belongs to the right upload depends on the whole order of calls, including refused ones; tests mock uploads and downloads and call each routine once.", "anchors": ["hermespy/hardware_loop/physical_device.py: PhysicalDevice.__init__, transmit, trigger_direct, process_input, receive, estimate_noise_power, _DeserializeParameters", "hermespy/hardware_loop/physical_device_dummy.py: PhysicalDeviceDummy", "hermespy/hardware_loop/uhd/usrp.py: UsrpDevice._upload, _download", "hermespy/hardware_loop/calibration/antennas.py: ScalarAntennaCalibration.correct_transmission", "hermespy/core/device.py: Device.generate_output, process_input, receive"]}
{"id": "C115", "title": "Sidelobe levels and self-interference", "statement": "For every array, carrier, focus and history of receptions, transmissions and setting changes of a simulated device: a sidelobe evaluation concerns the last transmitted (mode TX) or received (mode RX) signal, the focus set last and the codebook given at construction, and raises RuntimeError without such a signal or in duplex mode. The focus power is the energy a distant observer in the direction of the focus gets from an array fed with the signal, divided by the energy fed to the antennas; the other powers are those of the rows of the codebook; the artifact is the former over the sum of the latter. The default codebook of n antennas has a first row of ones, then 2n azimuths for each of n-1 zeniths; every power lies between zero and n; amplifying the signal changes nothing. The signal to self-interference and noise ratio is, per stream, the summed power of the impinging signals of the last input over the power of its leakage and noise. The exceptions, which fail: the first row stands for the zenith only if all antennas lie in the horizontal plane of the array; the south pole is counted 2n times in the artifact; weights are not conjugated on reception, so that the focus power is largest for a wave from the direction opposite to the focus and may be zero for a wave from the focus itself; the interference evaluators raise AttributeError instead of the documented RuntimeError before the first input and for inputs without leaking signal, and IndexError without impinging signals.", "quantifier": "every array, carrier, focus, codebook, signal with any number of blocks, streams and samples, and history of callbacks and setter calls", "why_tests_cant": "Whether powers are those of the right directions depends on array geometry, carrier and focus; tests check mocked devices for a finite scalar and do not compare it with a radiation pattern.", "anchors": ["hermespy/simulation/evaluators/beamforming.py: SidelobeEvaluation, SidelobeEvaluator", "hermespy/simulation/evaluators/interference.py: SI, SSINR"]}
{"id": "C116", "title": "Runs of the hardware loop and their live plots", "statement": "For every scenario, set of hooks, dimensions, evaluators and number of drops, and both iteration priorities: a run visits every point of the parameter grid exactly once per drop, with priority DROPS keeping the drops of a point together and with priority GRID sweeping the whole grid once per drop. Outside debug mode a run never raises; each failing pass prints an exception; results are recorded in the order of the visits, at most one per drop and exactly as many as drops at points without printed exception, one artifact for every evaluator; nothing is printed if nothing raises. Every artifact is recorded under the parameters that were configured when its drop was generated. Interrupting a run or declining a trigger keeps exactly what was done before. In debug mode the first exception ends the run after the passes before it. Live plots show samples in the order they were generated under every schedule of their threads, threads never deadlock, a stopped plot ends by itself, and a plot that was ready ends with the last sample of the run. The exceptions, which fail: a run ended by an exception in debug mode leaves the scenario recording; a dimension without objects, documented to apply to the scenario, raises AttributeError; the stand-in recorded for scenarios that cannot be serialized has none of their operators; a plot may skip samples, show none if the run ends before its figures are ready, or be handed no sample at all.", "quantifier": "every scenario, hooks, evaluators, grid, number of drops, iteration priority, pattern of failures, interruptions and declined triggers, and every interleaving of the main thread with a plot thread", "why_tests_cant": "Grids, failure patterns and thread schedules are unbounded; tests run a small grid with mocked scenarios and never exercise the interleavings of plot threads.", "anchors": ["hermespy/hardware_loop/hardware_loop.py: HardwareLoop.run, HardwareLoop.__run, HardwareLoop.__generate_sample, HardwareLoop.new_dimension, HardwareLoop.add_dimension, IterationPriority, PlotThread, ThreadContextManager", "hermespy/core/executable.py: Executable._handle_exception"]}
{"id": "C117", "title": "5G NR slots, subframes and frames", "statement": "For every numerology, number of resource blocks, pilot sequence and data: numerologies 0 to 6 have subcarriers spaced by 15 kHz times two to the numerology and a bandwidth of twelve subcarriers per resource block, others raise ValueError. Slots, subframes and frames of at least eleven resource blocks have 14, 14 times two to the numerology and ten times as many words, the first and third word of a slot or subframe with 127 references in the middle of null subcarriers and all other words with one reference followed by three data symbols; they advertise, accept and return exactly the data symbols of that layout; a freshly built waveform or link survives serialization. The primary synchronization sequence consists of 127 signs with correlation minus one at every nonzero cyclic shift. The exceptions, which fail: numerologies are not validated by subframes and frames; fewer than eleven resource blocks are accepted but no frame can be placed; the primary sequence is a shift of the standard's for none of its cell identities and is not what the first word transmits, which is the pilot sequence of the waveform; pilot sections with it raise in every 5G NR waveform; the secondary sequence always raises; a subframe of higher numerology is not a sequence of slots; a subframe lasts the same for every numerology but always less than its nominal millisecond; serialization resets modulation order, synchronization, estimation and equalization, loses a selection of the first port of a link and raises for several selected ports.", "quantifier": "every numerology, number of resource blocks, oversampling factor, pilot sequence, data symbols, cyclic shift, and configuration of the waveform and link", "why_tests_cant": "Layouts and durations depend on numerology and resource blocks; tests build a few waveforms and check that values are positive; correlation and conformity of sequences are not tested.", "anchors": ["hermespy/modem/waveforms/ieee_5gnr.py: nr_subcarrier_spacing, nr_bandwidth, PSS, SSS, NRSlot, NRSubframe, NRFrame", "hermespy/modem/ieee_5gnr.py: NRSlotLink", "hermespy/modem/waveforms/orthogonal/waveform.py: GridResource, SymbolSection, PilotSection, OrthogonalWaveform"]}
{"id": "C118", "title": "Least squares channel estimation of orthogonal waveforms", "statement": "Estimating the channel of an orthogonal waveform's frame by least squares (one stream; other numbers raise NotImplementedError) gives, at every reference of a frame without pilot sections, the channel's coefficient plus the noise over the reference symbol. Over a channel with a single coefficient no estimate of any cell, interpolated or extrapolated, is off by more than the largest noise over the weakest reference; without noise zero forcing returns the transmitted grid and picking returns the data. A channel that changes linearly over words and subcarriers is estimated exactly wherever the references surround a cell. Two cases fail: a frame whose references all lie in one word next to other symbols cannot be estimated (the triangulation raises), and the references of pilot sections are divided by the waveform's pilot sequence instead of the symbols sent.", "quantifier": "all resource grids, data, channel coefficients and noise of every cell, and all interpolations that return weighted means within the hull of the references (linear) and one of the values (nearest)", "why_tests_cant": "Tests estimate a few grids over a few random channels; the bounds must hold for every grid, channel, noise and triangulation.", "anchors": ["hermespy/modem/waveforms/orthogonal/channel.py:OrthogonalLeastSquaresChannelEstimation.estimate_channel", "hermespy/modem/waveform.py:ZeroForcingChannelEqualization", "hermespy/modem/waveforms/orthogonal/waveform.py:OrthogonalWaveform.resource_mask"]}
{"id": "C119", "title": "Simulation campaigns: stages, timestamps, seeds, pages and saved results", "statement": "Executing all stages of a simulation from any state of the runner gives a consistent drop: every reception is computed from the states, transmissions, outputs, channels and inputs of that same drop; executing the stages from some stage on keeps the draws of the earlier ones. Stages called out of order are refused: propagation succeeds exactly if channels were realized, states sampled and outputs generated since the last device was added, input processing exactly after a propagation and reception after a processing since then; failing calls change nothing; only generating outputs before transmitting is not reported as documented (TypeError). Sweeping the dimensions the library registers executes every stage, but a changed noise level is missed if a dimension that only affects reception changes too. Actors have different seeds (shared with other actors of other campaigns). A campaign announces drops at the multiples of the interval before the end of the longest trajectory, but every drop is generated at time zero. Every section is on exactly one page of the progress table, at most eight on a page. Saved results are found under their keys if the titles of the dimensions differ from each other and from the other keys; otherwise they are replaced.", "quantifier": "all scenarios, random draws, histories of stage calls and device additions, start stages, grids, trajectories, intervals, actors, numbers of sections and titles", "why_tests_cant": "Tests call the stages in order for one scenario and check mocked errors; the statements concern every history of calls and every combination of dimensions, trajectories and titles.", "anchors": ["hermespy/simulation/simulation.py:SimulationRunner", "hermespy/simulation/simulation.py:SimulationActor", "hermespy/simulation/simulation.py:Simulation.run", "hermespy/core/pymonte/actors.py:MonteCarloActor", "hermespy/core/pymonte/monte_carlo.py:MonteCarloResult.save_to_matlab", "hermespy/core/pymonte/monte_carlo.py:MonteCarlo.simulate"]}
{"id": "C120", "title": "Results directories, styles and exceptions of executables", "statement": "Creating a default results directory returns a directory that did not exist before and removes nothing; its index is the least one not in use on that day, the search ends however many directories there are, and a call fails only if a file is in the way. No two calls ever return the same directory, whatever is created in between and however concurrent processes are scheduled (though a concurrent call may fail). Names sort by index up to 999. With the overwrite flag the base directory is returned and nothing is erased. Every returned directory, and only directories, are accepted as results directory. Available styles are stored and others refused, but plots are always drawn in the default style. Verbosities given by name in upper case are accepted by constructor and setter alike, in lower case by the setter only. Exceptions are raised again only in debug mode, ignored exactly if nothing is printed and handling is not forced, and end the execution exactly if the user is asked and declines.", "quantifier": "all file systems, working directories, dates, experiment names, histories of calls and creations, numbers and schedules of concurrent processes, styles, names, modes and flags", "why_tests_cant": "Tests create one directory in an empty temporary folder; uniqueness concerns every content of the file system, every history and every schedule.", "anchors": ["hermespy/core/executable.py:Executable.default_results_dir", "hermespy/core/executable.py:Executable.results_dir", "hermespy/core/executable.py:Executable.style", "hermespy/core/executable.py:Executable.style_context", "hermespy/core/executable.py:Executable.verbosity", "hermespy/core/executable.py:Executable._handle_exception"]}
{"id": "C121", "title": "Channels sampled by external ray tracers", "statement": "A sample of a Quadriga channel propagates a signal as the sum of its paths, each delayed by its delay rounded to samples and weighted by its coefficients and the square root of the gain, and the received signal is longer by the latest path's delay, provided the transmitting device has as many receiving antennas as the receiver; otherwise receivers of several antennas get a ValueError and a single antenna receives several copies. The channel state of such a sample agrees with the propagation for single antennas and enough taps; a path beyond the taps, or several antennas, raise an exception, or yield a state in which antennas and samples are confused. A sample of a Sionna channel with a valid ray propagates a signal as the sum of its valid rays, its state never fails, consists of the rays within the requested taps and agrees with the propagation if all are. Without rays nothing arrives (Quadriga raises), but if all rays are invalid there is no state and short signals cannot be propagated. Signals are not resampled to the receiver's rate, and the reported energy scales can vanish or be negative although energy arrives.", "quantifier": "all numbers of antennas, paths, delays, coefficients, gains, bandwidths, signals and requested taps", "why_tests_cant": "paths come from external tools with arbitrary numbers, delays and coefficients; unit tests use mocked single antenna samples", "anchors": ["hermespy/channel/quadriga/quadriga.py:QuadrigaChannelSample", "hermespy/channel/sionna_rt_channel.py:SionnaRTChannelSample"]}
{"id": "C122", "title": "Bits from files and frames with packet headers", "statement": "A bit source reading a file delivers, whatever the history of requests, the file's bits in order and without gaps, most significant bits first; requests for other than whole bytes raise a RuntimeError and consume nothing. At the end of the file fewer bits are delivered without an exception, and a modem without error correction then fails to encode its frame. A source that is saved and loaded starts again at the beginning of the file. Without packets frames are the source's bits. A scapy frame generator produces frames of the requested size which begin with a header and unpack to the source's bits, if the packet is as long as a default one of its first layer's type and the frame has whole bytes; too small frames raise a ValueError on both sides. The fields of the given packet are lost; for packets of several layers frames are too short and the first payload bits are lost; frames of other than whole bytes become too long and cannot be encoded; and a bit error evaluator finds errors on a perfect link unless all bits of the frame are zero.", "quantifier": "all files, histories of requests, packets, sources and frame sizes", "why_tests_cant": "sequences of requests and file contents are unbounded; unit tests use single requests and single packets", "anchors": ["hermespy/modem/bits_source.py:StreamBitsSource", "hermespy/modem/frame_generator/scapy.py:FrameGeneratorScapy", "hermespy/modem/frame_generator/frame_generator.py:FrameGeneratorStub"]}
{"id": "C123", "title": "Delays and losses between devices", "statement": "A spatial delay channel delays every link by the distance of its devices over the speed of light: never negative, zero only at the same place, equal in both directions, never longer than via a third place, and moving a device changes it by at most the way moved over the speed of light. With propagation loss the received energy between single antennas falls with the square of distance and carrier frequency; without a carrier frequency propagation raises a RuntimeError, even at the same place. A random delay channel accepts exactly not negative floating point delays and ordered pairs of such; whatever is drawn its delays lie in the range set, are equal for equal positions, and are all equal unless a decorrelation distance is set. But: the gain documented as a factor of power multiplies amplitudes, so energies change by its square; devices close to each other receive more than was sent, without bound, and exactly as much at the same place; random delays sampled in both directions on their own differ; the loss of a random delay follows the delay drawn and not the distance; and a decorrelation distance of zero is accepted although no realization can then be drawn.", "quantifier": "all positions, carrier frequencies, gains, signals, settings, draws and distribution functions", "why_tests_cant": "positions and draws are continuous; unit tests check single links with fixed seeds", "anchors": ["hermespy/channel/delay/delay.py:DelayChannelSample", "hermespy/channel/delay/spatial.py:SpatialDelayChannelRealization", "hermespy/channel/delay/random.py:RandomDelayChannel", "hermespy/tools/math.py:amplitude_path_loss"]}
{"id": "C124", "title": "Resampling signals and mixing them to other carrier frequencies", "statement": "Resampling refuses rates that are not positive and changes nothing at the same rate. Raising the rate to a multiple without the anti-aliasing filter keeps all samples at their times, also in signals of several blocks; without filters resampling is linear. At all rates the begin of a block is kept up to half a sample and its duration up to less than one, so that blocks one after the other overlap by at most one sample; they can overlap, and then a sample is lost. Blocks without samples keep their offset and so change their time, and the number of samples depends on whether there are streams. Lowering the rate with the filter, the default, raises a ValueError for up to 27 samples and never for more; lowering it by a whole factor filters even if told not to. Adding a signal at another carrier frequency changes nothing if carrier and rate agree, adds nothing if the bands do not overlap, and raises a ValueError if the target band contains the signal's own with room to spare. Otherwise tones keep their frequency on air and are weighted by the filter's response, but their phase is turned by 64 times the distance of the carriers over the rate, and blocks are mixed as if they began at time zero, so that phases depend on how a signal is stored. The delay resampling matrix shifts by whole samples exactly, and cuts off for negative delays.", "quantifier": "all rates, carrier frequencies, filters, blocks, samples, tones and delays", "why_tests_cant": "rates, frequencies and samples are continuous; unit tests compare a few tones within a tolerance", "anchors": ["hermespy/core/signal_model.py:SignalBlock.resample_block", "hermespy/core/signal_model.py:SignalBlock.superimpose_to", "hermespy/core/signal_model.py:SparseSignal.resample", "hermespy/tools/resampling.py:delay_resampling_matrix"]}
{"id": "C125", "title": "Pilots of OFDM frames and Schmidl-Cox synchronization", "statement": "A pilot section generates the pilot of its current elements, subcarriers and oversampling after any history of changes, as long as elements are only replaced by other elements and all waveforms agree in DC suppression and mapping; once elements are removed, or the waveform is replaced by another one of as many subcarriers, the previous pilot is generated still. Elements are repeated over the subcarriers; the setter refuses several streams and empty ones, the constructor does not and generation then raises. A Schmidl-Cox pilot occupies every other subcarrier, and the second half of its samples equals the first or its negative if the number of samples is even, unless DC is suppressed and half the number of subcarriers is odd, when the halves can differ. Schmidl-Cox synchronization finds a symbol with such halves in silence exactly where it begins, on any number of antennas with any gains, if a sample follows it; carrier frequency offsets and gains do not matter. A symbol which ends with the signal is not found, and nothing is found in a signal of one symbol. Indices are ascending, nine tenths of a frame apart, and within the signal; only frames of less than two samples raise.", "quantifier": "all histories of settings and pilots, elements, subcarriers, oversampling factors, signals, antennas, gains, offsets and frame lengths", "why_tests_cant": "caches depend on the history, and samples, gains and offsets are continuous; unit tests try a few frames", "anchors": ["hermespy/modem/waveforms/orthogonal/waveform.py:PilotSection", "hermespy/modem/waveforms/orthogonal/ofdm.py:SchmidlCoxPilotSection", "hermespy/modem/waveforms/orthogonal/ofdm.py:SchmidlCoxSynchronization"]}
{"id": "C126", "title": "Signals played and recorded by audio devices", "statement": "An audio device plays the real part of the transmitted samples after moving their spectrum up by a quarter of the sampling rate plus one bin and cutting off everything in the upper half of the spectrum; recorded samples are moved back and doubled. If every channel records exactly what is played, without receive delay, streams come back unchanged exactly if they have no component at a frequency that is moved to zero or into the upper half: components at audible frequencies are kept, the component moved to zero is doubled and loses its imaginary part, all others are lost, and of n frequencies exactly n/2 - 1 are audible. Streams without samples are refused with a ValueError. Silence is appended for the receive delay, short of it by less than one sample; with such a silence even signals of audible frequencies do not come back, since the shift on reception is derived from the longer recording. The signal reported as uploaded holds the played samples divided into as many streams as the device has receiving ports, so that it is the played signal exactly if the device has as many receiving as transmitting ports, and a ValueError is raised if the samples cannot be divided.", "quantifier": "all numbers of streams, samples and ports, all sample values, all receive delays and sampling rates", "why_tests_cant": "whether a loop is transparent is a statement about all spectra of all lengths; tests play single signals", "anchors": ["hermespy/hardware_loop/audio/device.py: AudioDevice._upload, AudioDevice._download"]}
{"id": "C127", "title": "Ideal channel estimation", "statement": "Ideal channel estimates are computed from the channel sample realized last, without regard to the delay passed; estimating before a sample was realized is a RuntimeError, without waveform an AttributeError. For OFDM waveforms over a channel that does not change and whose taps fit into the cyclic prefix, every symbol received is the symbol sent times its estimate, at every oversampling and with or without DC suppression, so that zero forcing recovers all symbols whose estimate is not zero; flat channels are estimated as they are on every subcarrier. For single carrier waveforms over a channel that does not change, estimates of symbols that are late enough are the sum of all taps earlier than one symbol times the sum of the products of the coefficients of both filters; taps that are a symbol late or later do not matter. With rectangular pulses all symbols but the first are estimated right over flat channels; the estimate of the first symbol is too small, by one half at an oversampling of four, so that equalization doubles it. For frequency modulated waveforms the products of both filters may cancel, so that estimates of flat channels are zero.", "quantifier": "all waveforms, oversampling factors, numbers of symbols, subcarriers and taps, all constant channels and all cyclic prefixes; all histories of channel samples", "why_tests_cant": "whether estimates equalize the channel is a statement about all impulse responses, prefixes and grids", "anchors": ["hermespy/simulation/modem/channel_estimation.py: IdealChannelEstimation, SingleCarrierIdealChannelEstimation.estimate_channel, OFDMIdealChannelEstimation.estimate_channel", "hermespy/modem/waveforms/orthogonal/ofdm.py: OFDMWaveform._backward_transformation", "hermespy/modem/waveform_single_carrier.py: FilteredSingleCarrierWaveform._transmit_filter, _receive_filter, _filter_delay"]}
{"id": "C128", "title": "Operators of devices, their frames and triggers", "statement": "After any history of additions and removals the slot of a device holds exactly the operators that were added and not removed since, each once; further operators come last, removals keep the order of the others, and operators passed to the constructor are kept in the order of their first mention. Slots that are not supported refuse operators with a RuntimeError and stay empty. The longest frame of a device is at least as long as the frame of each of its operators and, unless it is zero, is the frame of one of them; a device with a silent transmitter has no longest frame: asking for it, or realizing a random trigger that controls the device, is an AttributeError. The samples receivers need are the largest number any of them needs. Silent transmitters transmit zeros on every port, as many as configured, or as requested by a positive duration, short of it by less than one sample; negative numbers are accepted at construction and raise a ValueError when transmitting. Signal transmitters transmit the samples of their signal at the sampling rate of the device, with the carrier frequency of the signal; the duration of their frame is that of the transmitted signal exactly if the device does not oversample, and stays that of the first signal when the signal is replaced. Signal receivers of negative power or number of samples are refused. Time offsets of triggers are realized short of the offset by less than one sample, random offsets lie before the end of the longest frame of all devices of the trigger, which must have the same sampling rate; without devices only static triggers are realized.", "quantifier": "all histories of additions and removals, all sets of operators and devices, all durations, rates, bandwidths and random numbers", "why_tests_cant": "histories and sets of operators are unbounded; durations and rates are real numbers", "anchors": ["hermespy/core/device.py: DSPSlot, ReceiverSlot.min_num_samples_per_frame, UnsupportedSlot, Device.__init__, Device.max_frame_duration", "hermespy/core/operators.py: SilentTransmitter, SignalTransmitter, SignalReceiver", "hermespy/simulation/simulated_device.py: StaticTrigger, SampleOffsetTrigger, TimeOffsetTrigger, RandomTrigger"]}
{"id": "C129", "title": "Range-Doppler maps of the TI XWR1843 radar", "statement": "An echo received by the TI XWR1843 radar whose beat turns backwards a whole number of times per chirp, at most half as often as there are samples, and whose phase advances by a whole number of turns over the frame shows as exactly one peak of its power in the estimate, in the column of its turns per chirp and the row as far from the middle as the turns over the frame; beats turning forwards are not seen at all. Samples are skipped until the rate is that of the converter or exceeds it by less than a factor of two. Radars at least as fast as the converter receive the columns of all range bins beyond the minimal range; slower ones with fewer columns than range bins fail with an IndexError. The range of a bin is that of a target whose beat turns as often per chirp, stretched by less than one part in the number of the last bin, exactly if the chirp interval is an even number of converter samples; by default, it is not, and all ranges but zero are too long. The Doppler bin of a row is half the frequency of the echoes shown there if the number of chirps is even; with an odd number no bin is that of a target at rest. Signals with several streams or none are a ValueError. The range resolution is the distance of neighbouring bins for a single bandwidth only. Pings have no streams but positive energy.", "quantifier": "all ramps, sampling rates, echoes and minimal ranges", "why_tests_cant": "echoes, rates and numbers of samples are unbounded", "anchors": ["hermespy/simulation/rf/presets/ti/xwr1843.py: TIXWR1843.estimate, range_bins, max_range, range_resolution, relative_doppler_bins, ping, energy", "hermespy/radar/radar.py: Radar._receive"]}
{"id": "C130", "title": "Ray-traced and Quadriga channel samples", "statement": "A receiver of a signal over traced paths receives on all its antennas the sum of all streams, late by the whole samples within the delay of each valid path and weighted by the path; the signal grows by the largest delay rounded up. The channel state receives the same without the paths too late for the requested number of taps; it may have one tap more than requested. Without any path nothing is received; if there are paths but all are invalid the state is a ValueError, and signals lose as many samples as the bandwidth or cannot be propagated. The scale of the expected energy does not depend on the gain, what is received does. Over Quadriga channels all antennas receive the weighted streams, late by the delays rounded to samples, if both ends receive with equally many antennas; a single antenna is copied to as many rows as the transmitter has receiving antennas, and other numbers are a ValueError. Between single antennas the state agrees with the propagation if the last path is within the requested taps and is an IndexError otherwise. With several antennas at both ends a delay for each pair is a ValueError, and with common delays states exist only for as many samples as transmitting and receiving antennas, where they mix up antennas and samples. Signals are lost, and received as empty signals, if the coefficients of traced paths cancel, or if the sum of the coefficients of Quadriga paths has no positive real part, even over a single path.", "quantifier": "all sets of paths, delays, gains, bandwidths, signals, numbers of antennas, samples and taps", "why_tests_cant": "paths, delays and signals are unbounded", "anchors": ["hermespy/channel/sionna_rt_channel.py: SionnaRTChannelSample.state, _propagate, expected_energy_scale", "hermespy/channel/quadriga/quadriga.py: QuadrigaChannelSample._propagate, state, expected_energy_scale", "hermespy/channel/channel.py: ChannelSample.propagate"]}
{"id": "C131", "title": "Tiled figures", "statement": "Tiling figures gives all of them a tile of the same size: in the asked grid if it has enough places, otherwise in the first larger one with one column more at a time whose rows are the columns scaled by the asked shape and rounded. No two figures overlap; without offsets all are on the screen. With an offset to the right and a width that is a multiple of the columns, the last column leaves the screen by the offset times the columns. Grids without columns or rows are refused.", "quantifier": "all grids, screens, offsets and numbers of figures", "why_tests_cant": "numbers of figures and sizes are unbounded", "anchors": ["hermespy/tools/tile.py: tile_figures"]}
{"id": "C132", "title": "Batch jobs", "statement": "A submitted batch job reserves the asked number of nodes and runs the given script whatever its name; the job bears the name of the script if it has no dollar sign, but keys of the template in the name are replaced in the name of the job, too. Without sbatch nothing is submitted unless checks are skipped.", "quantifier": "all script names, numbers of nodes and environments", "why_tests_cant": "script names are unbounded strings", "anchors": ["hermespy/tools/shermes.py: sHermes"]}
{"id": "C133", "title": "Split real and imaginary parts", "statement": "Splitting streams onto twice as many ports transmits their real and imaginary parts. Recombining them recovers the magnitudes of all samples, whatever angles are measured, unless a real part is zero: then no sample is a number. If all second parts lag their first parts by the same angle, the recombined samples have the phases of the first parts; so samples whose parts have equal signs are recovered as plus or minus their magnitude, and if no angle is negative no sample with an imaginary part is recovered. All are recovered if the mean of all angles is a quarter of a turn backwards. Several streams are split onto exactly twice as many ports; for an odd number of ports other than three the number of streams asked for cannot be split, and odd numbers from five cannot be recombined.", "quantifier": "all signals, numbers of streams and measured angles", "why_tests_cant": "signals and streams are unbounded", "anchors": ["hermespy/hardware_loop/precoding.py: IQSplitter.encode_streams, num_transmit_input_streams; IQCombiner.combineIQ, decode_streams, num_receive_output_streams"]}
{"id": "C134", "title": "Scenarios of physical devices", "statement": "In a drop of a physical scenario the hardware is triggered once, after all devices have uploaded what they transmit, and each device receives what it recorded while all of them transmitted together. If a device fails to transmit, nothing is triggered or recorded and the signals uploaded by the devices before it stay; whatever fails later fails after the signals went on air. Fewer signals than devices are a ValueError after the given ones were processed; contrary to the documentation superfluous signals are ignored, and with fewer states than devices the last devices silently do not transmit. Direct triggers need a signal for each device and otherwise are a ValueError without effect. USRPs then receive what all members of the system transmit, also those not selected, without calibration; sound cards transmit one after the other so that none receives another, with calibration even if it is switched off, and a refused signal is an error after the earlier devices have transmitted. USRP systems cannot be created with devices. No device is in a scenario twice, but a refused device is registered at the controlled system under the name given to the next device.", "quantifier": "all sets of devices, signals, states, exceptions, propagation between the devices and histories of added devices", "why_tests_cant": "devices, histories and the points of failure are unbounded", "anchors": ["hermespy/hardware_loop/scenario.py: PhysicalScenario._drop, receive_devices, trigger_direct", "hermespy/hardware_loop/uhd/system.py: UsrpSystem", "hermespy/hardware_loop/audio/scenario.py: AudioScenario._trigger_direct", "hermespy/core/scenario.py: Scenario.__init__, add_device, transmit_devices, receive_operators", "hermespy/hardware_loop/physical_device.py: PhysicalDevice.transmit, process_input, trigger_direct"]}
{"id": "C135", "title": "Beams towards devices", "statement": "Focusing a device means focusing its direction, along the axes of the scene, at the time of the state; devices at the same position cannot be focused and are a ValueError. However the antenna array is turned, operators with conventional beamformers receive the focused device undistorted, and their antennas' signals add up coherently towards it and nowhere to more, at the device's sampling rate and the carrier of the signal. Focusing the same direction by its global coordinates is not equivalent and may receive nothing. Capon beamformers instead receive undistorted what arrives from the direction of the device turned like the array. Signals with other than a single stream are refused with a ValueError.", "quantifier": "all positions, trajectories, times, antenna arrays and their poses, carriers, signals and directions", "why_tests_cant": "positions, arrays and signals are unbounded", "anchors": ["hermespy/simulation/beamforming.py: DeviceFocus.spherical_angles", "hermespy/beamforming/operators.py: BeamformingTransmitter._transmit, BeamformingReceiver._receive", "hermespy/beamforming/beamformer.py: encode_streams, decode_streams", "hermespy/core/transformation.py: Direction.From_Cartesian, to_spherical"]}
{"id": "C136", "title": "High-pass filters", "statement": "High-pass filters exist exactly for positive cutoff frequencies and orders of at least one, and are realized exactly if the cutoff is below half the sampling rate; anything else is a ValueError. Signals not longer than three times the number of coefficients are refused with a ValueError, all others keep their numbers of streams and samples and their rate. They are filtered forwards and then backwards, continued at both ends by as many samples mirrored through the first and last one. Superpositions of signals are filtered like the signals, each stream on its own, and a constant offset of a signal leaves the filter scaled by the squared response to constants: not at all if the coefficients of the numerator cancel.", "quantifier": "all cutoff frequencies, orders, rates, coefficients, signals, offsets and superpositions", "why_tests_cant": "signals and coefficients are unbounded", "anchors": ["hermespy/simulation/rf/blocks/filters.py: HPF.cutoff_frequency, filter_order, realize, _filter_coefficients", "hermespy/simulation/rf/blocks/filters.py: Filter._propagate"]}
{"id": "C137", "title": "Equalization of several streams", "statement": "Zero forcing of at least two receiving streams returns one stream for each transmitting one: exactly what was transmitted, plus the pseudo-inverse of whatever was added, at every symbol whose channel tells transmissions apart; in any case what remains unexplained is orthogonal to all channels, as in least squares. A single receiving stream is divided by the sum of its states and returns what all antennas transmit alike, but not what they transmit differently. Minimum-mean-square equalization raises a RuntimeError exactly if there are more transmitting than receiving streams and otherwise returns the very symbols of zero forcing: noise is not regarded.", "quantifier": "all numbers of streams, blocks and symbols, channel states, transmissions, additions and pseudo-inverses", "why_tests_cant": "symbols, states and their numbers are unbounded", "anchors": ["hermespy/modem/waveform.py: ZeroForcingChannelEqualization.equalize_channel", "hermespy/modem/waveform_single_carrier.py: SingleCarrierMinimumMeanSquareChannelEqualization.equalize_channel"]}
