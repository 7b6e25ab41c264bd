-Q theories Verif
theories/Base.v
theories/BaseLemmas.v
theories/Cplx.v
theories/SarModel.v
theories/SarSpec.v
theories/SarProofs.v
theories/SarProperties.v
theories/CapModel.v
theories/CapSpec.v
theories/CapProofs.v
theories/CapProperties.v
theories/FreqModel.v
theories/FreqSpec.v
theories/FreqProofs.v
theories/FreqProperties.v
theories/UnitsModel.v
theories/UnitsSpec.v
theories/UnitsProofs.v
theories/UnitsProperties.v
theories/TiModel.v
theories/TiSpec.v
theories/TiProofs.v
theories/TiProperties.v
theories/TiToneSpec.v
theories/TiToneProofs.v
theories/TiToneProperties.v
theories/SpecModel.v
theories/SpecSpec.v
theories/SpecLemmas.v
theories/SpecProofs.v
theories/SpecProperties.v
theories/SpecMetricProofs.v
theories/SpecMetricProperties.v
theories/SpecPrepProofs.v
theories/SpecPrepProperties.v
theories/SpecToneSpec.v
theories/SpecToneProofs.v
theories/SpecToneProperties.v
theories/OsrModel.v
theories/OsrSpec.v
theories/OsrProofs.v
theories/OsrProperties.v
theories/BandModel.v
theories/BandSpec.v
theories/BandProofs.v
theories/BandProperties.v
theories/RampModel.v
theories/RampSpec.v
theories/RampProofs.v
theories/RampProperties.v
theories/SineHistModel.v
theories/SineHistSpec.v
theories/SineHistProofs.v
theories/SineHistProperties.v
theories/SiggenModel.v
theories/SiggenSpec.v
theories/SiggenProofs.v
theories/SiggenProperties.v
theories/DoutModel.v
theories/DoutSpec.v
theories/DoutProofs.v
theories/DoutProperties.v
theories/SkillModel.v
theories/SkillSpec.v
theories/SkillLemmas.v
theories/SkillProofs.v
theories/SkillProperties.v
theories/ValidModel.v
theories/ValidSpec.v
theories/ValidProofs.v
theories/ValidProperties.v
theories/CalModel.v
theories/CalSpec.v
theories/CalProofs.v
theories/CalProperties.v
theories/CalExLemmas.v
theories/CalExProofs.v
theories/CalExProperties.v
theories/FitModel.v
theories/FitSpec.v
theories/FitProofs.v
theories/FitProperties.v
theories/AcfModel.v
theories/AcfSpec.v
theories/AcfProofs.v
theories/AcfProperties.v
theories/RearModel.v
theories/RearSpec.v
theories/RearProofs.v
theories/RearProperties.v
theories/HarmModel.v
theories/HarmSpec.v
theories/HarmProofs.v
theories/HarmProperties.v
theories/NonlinModel.v
theories/NonlinSpec.v
theories/NonlinProofs.v
theories/NonlinProperties.v
theories/SpecReportSpec.v
theories/SpecReportProofs.v
theories/SpecReportProperties.v
theories/CalMoreProofs.v
theories/CalMoreProperties.v
theories/AoutMoreProofs.v
theories/AoutMoreProperties.v
theories/CohModel.v
theories/CohSpec.v
theories/CohLemmas.v
theories/CohProofs.v
theories/CohProperties.v
theories/PlaneModel.v
theories/PlaneSpec.v
theories/PlaneProofs.v
theories/PlaneProperties.v
theories/EplaneModel.v
theories/EplaneSpec.v
theories/EplaneProofs.v
theories/EplaneProperties.v
theories/EpdfModel.v
theories/EpdfSpec.v
theories/EpdfProofs.v
theories/EpdfProperties.v
theories/EnvModel.v
theories/EnvSpec.v
theories/EnvProofs.v
theories/EnvProperties.v
theories/SweepModel.v
theories/SweepSpec.v
theories/SweepProofs.v
theories/SweepProperties.v
theories/OverModel.v
theories/OverSpec.v
theories/OverProofs.v
theories/OverProperties.v
theories/FltModel.v
theories/FltSpec.v
theories/FltLemmas.v
theories/FltProofs.v
theories/FltProperties.v
theories/EstModel.v
theories/EstSpec.v
theories/EstProofs.v
theories/EstProperties.v
theories/PlotModel.v
theories/PlotSpec.v
theories/PlotProofs.v
theories/PlotProperties.v
theories/DrawModel.v
theories/DrawSpec.v
theories/DrawProofs.v
theories/DrawProperties.v
theories/PanelModel.v
theories/PanelSpec.v
theories/PanelProofs.v
theories/PanelProperties.v
theories/FfreqModel.v
theories/FfreqLemmas.v
theories/FfreqProofs.v
theories/FfreqProperties.v
theories/DplotModel.v
theories/DplotSpec.v
theories/DplotLemmas.v
theories/DplotProofs.v
theories/DplotProperties.v
theories/EplotModel.v
theories/EplotSpec.v
theories/EplotProofs.v
theories/EplotProperties.v
theories/DashModel.v
theories/DashSpec.v
theories/DashProofs.v
theories/DashProperties.v
theories/AdashProofs.v
theories/AdashProperties.v
theories/VdlModel.v
theories/VdlSpec.v
theories/VdlProofs.v
theories/VdlProperties.v
theories/MatModel.v
theories/MatSpec.v
theories/MatProofs.v
theories/MatProperties.v
theories/MsinModel.v
theories/MsinProofs.v
theories/MsinProperties.v
theories/MerrModel.v
theories/MerrSpec.v
theories/MerrProofs.v
theories/MerrProperties.v
theories/MosrModel.v
theories/MosrSpec.v
theories/MosrProofs.v
theories/MosrProperties.v
theories/McalModel.v
theories/McalSpec.v
theories/McalProofs.v
theories/McalProperties.v
theories/MgenModel.v
theories/MgenSpec.v
theories/MgenProofs.v
theories/MgenProperties.v
theories/MspecModel.v
theories/MspecSpec.v
theories/MspecProofs.v
theories/MspecProperties.v
theories/MspecToneProofs.v
theories/MspecToneProperties.v
theories/MspecCohProofs.v
theories/MspecCohProperties.v
theories/MtightProofs.v
theories/MtightProperties.v
theories/MbitModel.v
theories/MbitSpec.v
theories/MbitProofs.v
theories/MbitProperties.v
theories/MphaseModel.v
theories/MphaseSpec.v
theories/MphaseProofs.v
theories/MphaseProperties.v
theories/MpanelModel.v
theories/MpanelSpec.v
theories/MpanelProofs.v
theories/MpanelProperties.v
theories/ChainModel.v
theories/ChainSpec.v
theories/ChainProofs.v
theories/ChainProperties.v
theories/MdataModel.v
theories/MdataProofs.v
theories/MdataProperties.v
theories/MwaveModel.v
theories/MwaveProofs.v
theories/MwaveProperties.v
theories/FdoutModel.v
theories/FdoutProofs.v
theories/FdoutProperties.v
theories/FstepModel.v
theories/FstepProofs.v
theories/FstepProperties.v
theories/MoldModel.v
theories/MoldProofs.v
theories/MoldProperties.v
theories/MtoolModel.v
theories/MtoolProofs.v
theories/MtoolProperties.v
theories/FcapModel.v
theories/FcapProofs.v
theories/FcapProperties.v
theories/FenobModel.v
theories/FenobProofs.v
theories/FenobProperties.v
theories/FrangeProofs.v
theories/FrangeProperties.v
theories/DiagModel.v
theories/DiagProofs.v
theories/DiagProperties.v
