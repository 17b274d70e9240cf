-Q theories Verif
theories/Base.v
theories/Graph.v
theories/GraphSpec.v
theories/GraphProofs.v
theories/TopoSort.v
theories/TopoSortSpec.v
theories/TopoSortProofs.v
theories/PropertiesGraph.v
theories/Buffer.v
theories/BufferSpec.v
theories/BufferProofs.v
theories/PropertiesBuffer.v
theories/DspGraph.v
theories/DspGraphSpec.v
theories/DspGraphProofs.v
theories/DspGraphExamples.v
theories/PropertiesDspGraph.v
theories/Float.v
theories/FloatProofs.v
theories/Timestamp.v
theories/TimestampProofs.v
theories/Processor.v
theories/ProcessorSpec.v
theories/ProcessorProofs.v
theories/ProcessorExamples.v
theories/PropertiesTimestamp.v
theories/PropertiesProcessor.v
theories/EventProcessor.v
theories/EventProcessorSpec.v
theories/EventProcessorProofs.v
theories/PropertiesEvents.v
theories/AudioParam.v
theories/AudioParamR.v
theories/AudioParamSpec.v
theories/AudioParamProofs.v
theories/AudioParamRProofs.v
theories/PropertiesParam.v
theories/Recorder.v
theories/RecorderSpec.v
theories/RecorderProofs.v
theories/PropertiesRecorder.v
theories/Sampler.v
theories/SamplerTime.v
theories/SamplerSpec.v
theories/SamplerVoice.v
theories/SamplerProofs.v
theories/SamplerScenes.v
theories/SamplerStop.v
theories/SamplerDemo.v
theories/SamplerRefuted.v
theories/SamplerCases.v
theories/SamplerFade.v
theories/SamplerFadeProofs.v
theories/PropertiesSampler.v
theories/Effect.v
theories/EffectSpec.v
theories/EffectProofs.v
theories/Mixer.v
theories/MixerR.v
theories/MixerSpec.v
theories/MixerProofs.v
theories/GainProofs.v
theories/PropertiesMixer.v
theories/Adsr.v
theories/AdsrSpec.v
theories/AdsrProofs.v
theories/AdsrCurve.v
theories/AdsrNote.v
theories/AdsrRange.v
theories/PropertiesAdsr.v
theories/Envelope.v
theories/EnvelopeSpec.v
theories/EnvelopeProofs.v
theories/EnvelopeNode.v
theories/EnvelopeCases.v
theories/PropertiesEnvelope.v
theories/Arith.v
theories/Oscillator.v
theories/OscillatorSpec.v
theories/OscillatorPhase.v
theories/OscillatorProofs.v
theories/OscillatorNode.v
theories/OscillatorCases.v
theories/PropertiesOscillator.v
theories/Level.v
theories/LevelProofs.v
theories/Compressor.v
theories/CompressorSpec.v
theories/CompressorProofs.v
theories/CompressorNode.v
theories/CompressorCases.v
theories/PropertiesCompressor.v
theories/Kernels.v
theories/KernelsSpec.v
theories/KernelsProofs.v
theories/Notifiers.v
theories/NotifiersSpec.v
theories/NotifiersProofs.v
theories/PropertiesKernels.v
theories/Resample.v
theories/ResampleSpec.v
theories/ResampleProofs.v
theories/ResampleFloat.v
theories/ResampleCases.v
theories/PropertiesResample.v
theories/Waveshaper.v
theories/WaveshaperSpec.v
theories/WaveshaperProofs.v
theories/WaveshaperCases.v
theories/PropertiesWaveshaper.v
theories/Complex.v
theories/ComplexProofs.v
theories/Convolution.v
theories/ConvolutionSpec.v
theories/ConvolutionProofs.v
theories/ConvolutionCases.v
theories/PropertiesConvolution.v
theories/Biquad.v
theories/BiquadSpec.v
theories/BiquadStable.v
theories/BiquadResponse.v
theories/BiquadFilters.v
theories/BiquadProofs.v
theories/BiquadCases.v
theories/NodeParameters.v
theories/NodeParametersProofs.v
theories/PropertiesBiquad.v
theories/Threads.v
theories/ThreadsSpec.v
theories/ThreadsProofs.v
theories/ThreadsExamples.v
theories/PropertiesThreads.v
theories/Node.v
theories/NodeSpec.v
theories/NodeProofs.v
theories/NodeGain.v
theories/LimitsSpec.v
theories/LimitsProofs.v
theories/NodeExamples.v
theories/PropertiesNode.v
theories/EventChannel.v
theories/EventChannelSpec.v
theories/EventChannelProofs.v
theories/PropertiesChannel.v
theories/Chain.v
theories/ChainSpec.v
theories/ChainProofs.v
theories/ChainExamples.v
theories/PropertiesChain.v
theories/Effects.v
theories/EffectShape.v
theories/EffectsSpec.v
theories/EffectsProofs.v
theories/StreamSpec.v
theories/StreamProofs.v
theories/DeviceProofs.v
theories/DynamicsProofs.v
theories/SinkProofs.v
theories/LibraryProofs.v
theories/LibraryExamples.v
theories/PropertiesLibrary.v
theories/NetSpec.v
theories/NetProofs.v
theories/NetExamples.v
theories/NetLibrary.v
theories/PropertiesNet.v
theories/MelodySpec.v
theories/ScoreProofs.v
theories/MelodyProofs.v
theories/NetMelody.v
theories/PropertiesMelody.v
theories/TrackSpec.v
theories/TrackProofs.v
theories/NetTrack.v
theories/LoopCalls.v
theories/PropertiesTrack.v
theories/Binary64.v
theories/RoundedProofs.v
theories/ExponentialProofs.v
theories/RoundingCases.v
theories/PropertiesRounding.v
theories/FilterSpec.v
theories/FilterProofs.v
theories/PropertiesFilter.v
theories/AutomationSpec.v
theories/AutomationProofs.v
theories/AutomationCases.v
theories/PropertiesAutomation.v
theories/Signals.v
theories/SignalsProofs.v
theories/PropertiesSignals.v
theories/NetAutomationSpec.v
theories/NetAutomation.v
theories/PropertiesAutomationNet.v
theories/ProgramSpec.v
theories/NetProgram.v
theories/PropertiesProgram.v
theories/AdsrCutSpec.v
theories/AdsrCut.v
theories/PropertiesAdsrCut.v
theories/AnyNotesSpec.v
theories/AnyNotes.v
theories/ShortNotes.v
theories/ShortNotesExample.v
theories/PropertiesAnyNotes.v
theories/NotesCurveSpec.v
theories/NotesCurve.v
theories/PropertiesNotesCurve.v
theories/LevelClamp.v
theories/PropertiesLevel.v
theories/SampleAccess.v
theories/PropertiesSample.v
theories/TimeUnits.v
theories/PropertiesTimeUnits.v
