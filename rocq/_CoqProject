-Q theories Verif
theories/Base.v
theories/CsprngModel.v
theories/CsprngSpec.v
theories/CsprngProofs.v
theories/CsprngFamily.v
theories/CsprngTheorems.v
theories/Word.v
theories/WordFacts.v
theories/DecompModel.v
theories/DecompProofs.v
theories/DecompTheorems.v
theories/NegaRing.v
theories/PolySpec.v
theories/PolyModel.v
theories/PolyProofs.v
theories/KaratsubaProofs.v
theories/PolyTheorems.v
theories/RandomModel.v
theories/RandomProofs.v
theories/RandomTheorems.v
theories/LweSpec.v
theories/LweModel.v
theories/LweProofs.v
theories/LweTheorems.v
theories/LweVectorTheorems.v
theories/GlweSpec.v
theories/GlweModel.v
theories/GlweProofs.v
theories/GlweTheorems.v
theories/GgswSpec.v
theories/GgswModel.v
theories/GgswProofs.v
theories/GgswTheorems.v
theories/RingSum.v
theories/ExtProdModel.v
theories/ExtProdSpec.v
theories/ExtProdProofs.v
theories/ExtProdTheorems.v
theories/NoiseBounds.v
theories/BootstrapModel.v
theories/BootstrapSpec.v
theories/BootstrapTheorems.v
theories/KeyswitchModel.v
theories/KeyswitchSpec.v
theories/KeyswitchProofs.v
theories/KeyswitchTheorems.v
theories/PackingProofs.v
theories/PackingTheorems.v
theories/SeededModel.v
theories/SeededTheorems.v
theories/ParModel.v
theories/ParTheorems.v
theories/NttModel.v
theories/NttSpec.v
theories/NttProofs.v
theories/NttEval.v
theories/NttApi.v
theories/NttTheorems.v
theories/NttTables32.v
theories/NttTables64.v
theories/NttTableProofs.v
theories/NttCheck32.v
theories/NttCheck64.v
theories/NttTableTheorems.v
theories/NttSwitchProofs.v
theories/NttSwitchTheorems.v
theories/NttExtProdProofs.v
theories/NttExtProdTheorems.v
theories/WopModel.v
theories/WopSpec.v
theories/WopTreeProofs.v
theories/WopTheorems.v
theories/WopBitsProofs.v
theories/WopCbsProofs.v
theories/WopBitsTheorems.v
theories/EngineModel.v
theories/EngineSpec.v
theories/EngineTheorems.v
theories/EngineGlweTheorems.v
theories/EngineFftTheorems.v
theories/CpuModel.v
theories/CpuSpec.v
theories/CpuProofs.v
theories/CpuTheorems.v
theories/CpuWopTheorems.v
theories/SeederModel.v
theories/SeederTheorems.v
theories/SerialModel.v
theories/SerialSpec.v
theories/SerialTheorems.v
theories/FloatModel.v
theories/FloatFacts.v
theories/EncoderModel.v
theories/EncoderSpec.v
theories/EncoderProofs.v
theories/EncoderTheorems.v
theories/AesSpec.v
theories/AesModel.v
theories/AesProofs.v
theories/AesArmProofs.v
theories/AesTheorems.v
theories/ScratchModel.v
theories/ScratchTheorems.v
theories/GswModel.v
theories/GswSpec.v
theories/GswTheorems.v
theories/FourierConvSpec.v
theories/FourierConvModel.v
theories/FourierConvProofs.v
theories/FourierConvBounds.v
theories/FourierConvTheorems.v
theories/ComplexSpec.v
theories/ComplexFacts.v
theories/FourierBackendModel.v
theories/FourierBackendMac.v
theories/FourierBackendSpec.v
theories/FourierBackendProofs.v
theories/FourierTwistiesTheorems.v
theories/FourierBackendTheorems.v
theories/FourierBackendTheorems2.v
theories/PlanCacheModel.v
theories/PlanCacheTheorems.v
theories/CircuitSpec.v
theories/CircuitModel.v
theories/CircuitTheorems.v
theories/CircuitFftTheorems.v
theories/CudaSpec.v
theories/CudaModel.v
theories/CudaFacts.v
theories/CudaTheorems.v
theories/CudaKsModel.v
theories/CudaKsProofs.v
theories/CudaKsFacts.v
theories/CudaKsTheorems.v
theories/CudaBlockModel.v
theories/CudaBlockProofs.v
theories/CudaFftModel.v
theories/CudaFftSpec.v
theories/CudaFftAlgebra.v
theories/CudaFftProofs.v
theories/CudaFftFacts.v
theories/CudaFftTheorems.v
theories/CudaFftTable.v
theories/CudaFftTableFacts.v
theories/CudaFftRealTheorems.v
theories/CudaHoare.v
theories/CudaPbsModel.v
theories/CudaPbsPhases.v
theories/CudaPbsKernel.v
theories/CudaPbsFacts.v
theories/CudaPbsSpec.v
theories/CudaPbsLink.v
theories/CudaPbsTheorems.v
theories/CudaPbsRealModel.v
theories/CudaPbsReal.v
theories/CudaPbsRealBackend.v
theories/CudaPbsRealTheorems.v
theories/CudaGridModel.v
theories/CudaGridProofs.v
theories/CudaLowLatModel.v
theories/CudaLowLatPhases.v
theories/CudaLowLatKernel.v
theories/CudaLowLatTheorems.v
theories/CudaLowLatRealTheorems.v
theories/CudaScratchModel.v
theories/CudaScratchTheorems.v
theories/SessionModel.v
theories/SessionSpec.v
theories/SessionTheorems.v
theories/NoiseSpec.v
theories/NoiseFacts.v
theories/NoiseModel.v
theories/NoiseKeyFacts.v
theories/NoiseTheorems.v
theories/NoiseKeyTheorems.v
theories/SessionFreshTheorems.v
theories/NoiseDigitFacts.v
theories/NoiseKsFacts.v
theories/NoiseKsTheorems.v
theories/NoisePackTheorems.v
theories/NoiseEpTheorems.v
theories/CudaGatesSpec.v
theories/CudaGatesModel.v
theories/CudaGatesTheorems.v
theories/CudaBitsModel.v
theories/CudaBitsProofs.v
theories/CudaBitsTheorems.v
theories/CudaFpksModel.v
theories/CudaFpksProofs.v
theories/CudaFpksTheorems.v
theories/CudaCbsModel.v
theories/CudaCbsProofs.v
theories/CudaCbsTheorems.v
