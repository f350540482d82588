-Q theories Verif
theories/Common/Base.v
theories/Common/F32.v
theories/Common/F32Arith.v
theories/Common/F32Err.v
theories/Common/F32Order.v
theories/Common/F32Real.v
theories/Common/Lemmas.v
theories/Common/Lists.v
theories/Model/AccessIrq.v
theories/Model/Audio.v
theories/Model/BigBuffer.v
theories/Model/Calib.v
theories/Model/Circular.v
theories/Model/CircularExt.v
theories/Model/CircularIrq.v
theories/Model/CircularMix.v
theories/Model/Color.v
theories/Model/CompactBinary.v
theories/Model/Debouncer.v
theories/Model/Detect.v
theories/Model/DoubleBuf.v
theories/Model/DoubleBufIrq.v
theories/Model/DoubleBufReentry.v
theories/Model/Encoder.v
theories/Model/Fifo.v
theories/Model/FifoConc.v
theories/Model/FifoPolled.v
theories/Model/FifoSeek.v
theories/Model/FifoSeekWeak.v
theories/Model/FifoSpan.v
theories/Model/FifoTape.v
theories/Model/FifoWeak.v
theories/Model/Filter.v
theories/Model/FilterF.v
theories/Model/FixedVector.v
theories/Model/Geometry.v
theories/Model/IntToStr.v
theories/Model/Interp.v
theories/Model/InterpIrq.v
theories/Model/InterpVar.v
theories/Model/InterpWeak.v
theories/Model/Irq.v
theories/Model/MapIrq.v
theories/Model/Maps.v
theories/Model/MathFloat.v
theories/Model/MathInt.v
theories/Model/MathLookup.v
theories/Model/MathTables.v
theories/Model/Memory.v
theories/Model/Neon.v
theories/Model/OneShot.v
theories/Model/Oscs.v
theories/Model/OwnBuffer.v
theories/Model/Poll.v
theories/Model/Pool.v
theories/Model/PoolConc.v
theories/Model/PoolIrq.v
theories/Model/PoolUsed.v
theories/Model/Range.v
theories/Model/RefIrq.v
theories/Model/RgbLed.v
theories/Model/StackIrq.v
theories/Model/StaticString.v
theories/Model/StringIrq.v
theories/Model/Strings.v
theories/Model/Table.v
theories/Model/VectorIrq.v
theories/Model/VectorMove.v
theories/Model/Version.v
theories/Model/VoctF.v
theories/Model/WearCrash.v
theories/Model/WearLevel.v
theories/Proofs/Absorb.v
theories/Proofs/AccessIrq.v
theories/Proofs/AccessRun.v
theories/Proofs/Audio.v
theories/Proofs/BigBuffer.v
theories/Proofs/BytesLE.v
theories/Proofs/Calib.v
theories/Proofs/CalibFloat.v
theories/Proofs/Circular.v
theories/Proofs/CircularBlock.v
theories/Proofs/CircularExt.v
theories/Proofs/CircularIrq.v
theories/Proofs/CircularMix.v
theories/Proofs/Color.v
theories/Proofs/ColorFloat.v
theories/Proofs/CompactBinary.v
theories/Proofs/Debouncer.v
theories/Proofs/Delay.v
theories/Proofs/Detect.v
theories/Proofs/Digits.v
theories/Proofs/DoubleBuf.v
theories/Proofs/DoubleBufIrq.v
theories/Proofs/DoubleBufReentry.v
theories/Proofs/Encoder.v
theories/Proofs/Exp10Table.v
theories/Proofs/ExpLn.v
theories/Proofs/ExpTable.v
theories/Proofs/Fifo.v
theories/Proofs/FifoConc.v
theories/Proofs/FifoPolled.v
theories/Proofs/FifoSeek.v
theories/Proofs/FifoSeekWeak.v
theories/Proofs/FifoSpan.v
theories/Proofs/FifoTape.v
theories/Proofs/FifoWeak.v
theories/Proofs/FifoWrap.v
theories/Proofs/Filter.v
theories/Proofs/FilterFloat.v
theories/Proofs/FixedVector.v
theories/Proofs/FlashFreq.v
theories/Proofs/Geometry.v
theories/Proofs/History.v
theories/Proofs/IirFloat.v
theories/Proofs/IntToStr.v
theories/Proofs/Interp.v
theories/Proofs/InterpFloat.v
theories/Proofs/InterpIrq.v
theories/Proofs/InterpVar.v
theories/Proofs/InterpWeak.v
theories/Proofs/Irq.v
theories/Proofs/LedAnim.v
theories/Proofs/LogTable.v
theories/Proofs/MapIrq.v
theories/Proofs/Maps.v
theories/Proofs/MathFloat.v
theories/Proofs/MathInt.v
theories/Proofs/MathTables.v
theories/Proofs/MeanFloat.v
theories/Proofs/Memory.v
theories/Proofs/Neon.v
theories/Proofs/OneShot.v
theories/Proofs/Oscs.v
theories/Proofs/OscsFloat.v
theories/Proofs/OwnBuffer.v
theories/Proofs/PackedF.v
theories/Proofs/Poll.v
theories/Proofs/Pool.v
theories/Proofs/PoolConc.v
theories/Proofs/PoolIrq.v
theories/Proofs/PoolUsed.v
theories/Proofs/Pow2.v
theories/Proofs/Pow2Big.v
theories/Proofs/Pow2Neg.v
theories/Proofs/Range.v
theories/Proofs/Readers.v
theories/Proofs/RefIrq.v
theories/Proofs/Relay.v
theories/Proofs/RgbBright.v
theories/Proofs/SMapIrq.v
theories/Proofs/SeqMap.v
theories/Proofs/SinNeg.v
theories/Proofs/SinTable.v
theories/Proofs/SineArc.v
theories/Proofs/StackIrq.v
theories/Proofs/StaticString.v
theories/Proofs/StringIrq.v
theories/Proofs/Strings.v
theories/Proofs/Table.v
theories/Proofs/TableAcc.v
theories/Proofs/TableF.v
theories/Proofs/TanHigh.v
theories/Proofs/TanNeg.v
theories/Proofs/TanTable.v
theories/Proofs/TanTop.v
theories/Proofs/Trig.v
theories/Proofs/Uninterrupted.v
theories/Proofs/VectorIrq.v
theories/Proofs/VectorMove.v
theories/Proofs/Version.v
theories/Proofs/VoctFloat.v
theories/Proofs/WearAge.v
theories/Proofs/WearCrash.v
theories/Proofs/WearLevel.v
theories/Props/AccessIrq.v
theories/Props/Audio.v
theories/Props/BigBuffer.v
theories/Props/Calib.v
theories/Props/Circular.v
theories/Props/CircularExt.v
theories/Props/CircularIrq.v
theories/Props/CircularMix.v
theories/Props/Color.v
theories/Props/CompactBinary.v
theories/Props/Debouncer.v
theories/Props/Delay.v
theories/Props/Detect.v
theories/Props/DoubleBuf.v
theories/Props/DoubleBufIrq.v
theories/Props/DoubleBufReentry.v
theories/Props/Encoder.v
theories/Props/Fifo.v
theories/Props/FifoConc.v
theories/Props/FifoPolled.v
theories/Props/FifoSeek.v
theories/Props/FifoSeekWeak.v
theories/Props/FifoSpan.v
theories/Props/FifoWeak.v
theories/Props/Filter.v
theories/Props/FixedVector.v
theories/Props/FloatAcc.v
theories/Props/FloatAcc2.v
theories/Props/Geometry.v
theories/Props/IntToStr.v
theories/Props/Interp.v
theories/Props/InterpIrq.v
theories/Props/InterpVar.v
theories/Props/InterpWeak.v
theories/Props/Irq.v
theories/Props/LedAnim.v
theories/Props/MapIrq.v
theories/Props/Maps.v
theories/Props/MathFloat.v
theories/Props/MathInt.v
theories/Props/MathTables.v
theories/Props/Memory.v
theories/Props/Neon.v
theories/Props/OneShot.v
theories/Props/Oscs.v
theories/Props/OwnBuffer.v
theories/Props/PackedF.v
theories/Props/Poll.v
theories/Props/Pool.v
theories/Props/PoolIrq.v
theories/Props/PoolUsed.v
theories/Props/Range.v
theories/Props/RefIrq.v
theories/Props/Relay.v
theories/Props/StackIrq.v
theories/Props/StaticString.v
theories/Props/StringIrq.v
theories/Props/Strings.v
theories/Props/Table.v
theories/Props/VectorIrq.v
theories/Props/VectorMove.v
theories/Props/Version.v
theories/Props/WearAge.v
theories/Props/WearCrash.v
theories/Props/WearLevel.v
theories/Spec/AccessIrqSpec.v
theories/Spec/AccessRunSpec.v
theories/Spec/AccessSpec.v
theories/Spec/BinarySpec.v
theories/Spec/ButtonSpec.v
theories/Spec/CalibSpec.v
theories/Spec/ColorSpec.v
theories/Spec/DelaySpec.v
theories/Spec/DetectSpec.v
theories/Spec/Digits.v
theories/Spec/EncoderSpec.v
theories/Spec/FifoLog.v
theories/Spec/FilterSpec.v
theories/Spec/FloatBits.v
theories/Spec/GeometrySpec.v
theories/Spec/HandoffSpec.v
theories/Spec/HeapSpec.v
theories/Spec/History.v
theories/Spec/InterpIrqSpec.v
theories/Spec/InterpSpec.v
theories/Spec/InterpVarSpec.v
theories/Spec/IrqSpec.v
theories/Spec/LedSpec.v
theories/Spec/Linearizable.v
theories/Spec/MapIrqSpec.v
theories/Spec/MapSpec.v
theories/Spec/MathSpec.v
theories/Spec/MemorySpec.v
theories/Spec/OneShotSpec.v
theories/Spec/PollSpec.v
theories/Spec/PolledLog.v
theories/Spec/PolyLine.v
theories/Spec/PoolSpec.v
theories/Spec/PrintSpec.v
theories/Spec/Queue.v
theories/Spec/RangeSpec.v
theories/Spec/RealMean.v
theories/Spec/ReentrySpec.v
theories/Spec/RefIrqSpec.v
theories/Spec/RelaySpec.v
theories/Spec/RetainSpec.v
theories/Spec/RingSpec.v
theories/Spec/SeekLog.v
theories/Spec/SeekSpec.v
theories/Spec/StackIrqSpec.v
theories/Spec/StaticStringSpec.v
theories/Spec/StreamSpec.v
theories/Spec/StringIrqSpec.v
theories/Spec/Sums.v
theories/Spec/TableSpec.v
theories/Spec/Tape.v
theories/Spec/TextSpec.v
theories/Spec/VectorIrqSpec.v
theories/Spec/VectorSpec.v
theories/Spec/VersionSpec.v
theories/Spec/VoctSpec.v
theories/Spec/WearAgeSpec.v
theories/Spec/WearCrashSpec.v
theories/Spec/WearSpec.v
