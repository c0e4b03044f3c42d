-Q theories Verif
theories/Outcome.v
theories/CoordSetsModel.v
theories/CoordSetsSpec.v
theories/CoordSetsProofs.v
theories/PropertiesCoordSets.v
theories/QuantityModel.v
theories/QuantitySpec.v
theories/QuantityProofs.v
theories/QuantityProofs2.v
theories/PropertiesQuantity.v
theories/RayTraceModel.v
theories/RayTraceSpec.v
theories/RayTraceProofs.v
theories/RayTraceProofs2.v
theories/RayTraceProofs3.v
theories/PropertiesRayTrace.v
theories/SmartPtrModel.v
theories/SmartPtrSpec.v
theories/SmartPtrProofs.v
theories/PropertiesSmartPtr.v
theories/RefCountModel.v
theories/RefCountSpec.v
theories/RefCountProofs.v
theories/PropertiesRefCount.v
theories/HooksModel.v
theories/HooksSpec.v
theories/HooksProofs.v
theories/HooksProofs2.v
theories/PropertiesHooks.v
theories/WorldlineModel.v
theories/WorldlineSpec.v
theories/WorldlineProofs.v
theories/WorldlineProofs2.v
theories/WorldlineProofs3.v
theories/PropertiesWorldline.v
theories/RayNumModel.v
theories/RayNumSpec.v
theories/RayNumProofs.v
theories/PropertiesRayNum.v
theories/Mat4.v
theories/TransmissionModel.v
theories/TransmissionSpec.v
theories/PropertiesTransmission.v
theories/TextModel.v
theories/TextSpec.v
theories/TextProofs.v
theories/PropertiesText.v
theories/RegisterModel.v
theories/PropertiesRegister.v
theories/PropertyModel.v
theories/PropertySpec.v
theories/PropertiesObject.v
theories/FactoryModel.v
theories/FactorySpec.v
theories/PropertiesFactory.v
theories/CompositeModel.v
theories/CompositeSpec.v
theories/PropertiesComposite.v
theories/SpectroModel.v
theories/SpectroSpec.v
theories/SpectroProofs.v
theories/PropertiesSpectro.v
theories/Angle.v
theories/MetricVecModel.v
theories/MetricVecSpec.v
theories/MetricVecProofs.v
theories/PropertiesMetricVec.v
theories/ScreenModel.v
theories/ScreenSpec.v
theories/ScreenProofs.v
theories/ScreenDir.v
theories/PropertiesScreen.v
theories/PropertiesScreenDir.v
theories/UnitsModel.v
theories/PropertiesUnits.v
theories/MaskModel.v
theories/PropertiesMask.v
theories/InvertModel.v
theories/InvertProofs.v
theories/PropertiesInvert.v
theories/CoefModel.v
theories/CoefSpec.v
theories/CoefProofs.v
theories/CoefKS.v
theories/PropertiesCoef.v
theories/GeoSpec.v
theories/GeoProofs.v
theories/GeoKS.v
theories/PropertiesGeo.v
theories/KerrMomModel.v
theories/KerrMomSpec.v
theories/KerrMomProofs.v
theories/KerrMomMotion.v
theories/KerrFrame.v
theories/KerrTetrad.v
theories/PropertiesKerr.v
theories/DefMetricModel.v
theories/DefMetricSpec.v
theories/DefMetricProofs.v
theories/PropertiesDefMetric.v
theories/DefEmitModel.v
theories/DefEmitSpec.v
theories/DefEmitProofs.v
theories/PropertiesDefEmit.v
theories/SpectrumModel.v
theories/SpectrumSpec.v
theories/SpectrumProofs.v
theories/SpectrumOver.v
theories/SpectrumRiemann.v
theories/PropertiesSpectrum.v
theories/PropertiesSpectra.v
theories/IntegModel.v
theories/IntegSpec.v
theories/PropertiesInteg.v
theories/RootModel.v
theories/PropertiesRoot.v
theories/PolarModel.v
theories/PolarSpec.v
theories/PolarAlg.v
theories/PolarProofs.v
theories/PolarPhys.v
theories/PolarEmit.v
theories/PropertiesPolar.v
theories/InterpModel.v
theories/InterpSpec.v
theories/InterpProofs.v
theories/PropertiesInterp.v
theories/GridModel.v
theories/GridSpec.v
theories/PropertiesGrid.v
theories/PatternModel.v
theories/PatternSpec.v
theories/PatternProofs.v
theories/PropertiesPattern.v
theories/HitModel.v
theories/HitSpec.v
theories/HitProofs.v
theories/PropertiesHit.v
theories/ImpactModel.v
theories/ImpactSpec.v
theories/ImpactProofs.v
theories/PropertiesImpact.v
theories/TraceModel.v
theories/TraceSpec.v
theories/TraceProofs.v
theories/PropertiesTrace.v
theories/HayModel.v
theories/HayProofs.v
theories/MetModel.v
theories/KrzModel.v
theories/MetSpec.v
theories/MetProofs.v
theories/KrzProofs.v
theories/CircProofs.v
theories/CircWit.v
theories/MargProofs.v
theories/PropertiesMet.v
theories/PropertiesOrb.v
theories/MagModel.v
theories/MagSpec.v
theories/MagProofs.v
theories/IpoleProofs.v
theories/ChiProofs.v
theories/PropertiesMag.v
theories/OwnHitModel.v
theories/OwnHitSpec.v
theories/OwnHitProofs.v
theories/PropertiesOwnHit.v
theories/PageModel.v
theories/PageSpec.v
theories/PageProofs.v
theories/PropertiesPage.v
theories/MpiModel.v
theories/MpiSpec.v
theories/MpiProofs.v
theories/PropertiesMpi.v
theories/TableModel.v
theories/TableSpec.v
theories/TableProofs.v
theories/PropertiesTable.v
theories/SlabModel.v
theories/SlabSpec.v
theories/SlabProofs.v
theories/PropertiesSlab.v
theories/DynModel.v
theories/DynSpec.v
theories/DynProofs.v
theories/PropertiesDyn.v
theories/PixModel.v
theories/PixSpec.v
theories/PixProofs.v
theories/PropertiesPix.v
theories/GetModel.v
theories/GetSpec.v
theories/GetProofs.v
theories/PropertiesGet.v
theories/AdmModel.v
theories/AdmSpec.v
theories/AdmProofs.v
theories/PropertiesAdm.v
theories/LorModel.v
theories/LorSpec.v
theories/LorProofs.v
theories/PropertiesLor.v
theories/CliModel.v
theories/CliSpec.v
theories/CliProofs.v
theories/PropertiesCli.v
theories/SynchModel.v
theories/SynchSpec.v
theories/SynchProofs.v
theories/PropertiesSynch.v
theories/StarModel.v
theories/StarSpec.v
theories/PropertiesStar.v
theories/BlobModel.v
theories/BlobSpec.v
theories/PropertiesBlob.v
theories/DeformModel.v
theories/DeformSpec.v
theories/PropertiesDeform.v
theories/FlowModel.v
theories/FlowSpec.v
theories/PropertiesFlow.v
theories/ShiftModel.v
theories/ShiftSpec.v
theories/PropertiesShift.v
theories/NewtonModel.v
theories/NewtonSpec.v
theories/PropertiesNewton.v
theories/FlaredModel.v
theories/FlaredSpec.v
theories/PropertiesFlared.v
theories/Rk4Model.v
theories/Rk4Spec.v
theories/PropertiesRk4.v
theories/DoughModel.v
theories/DoughSpec.v
theories/PropertiesDough.v
theories/OscilModel.v
theories/OscilSpec.v
theories/PropertiesOscil.v
theories/MinkModel.v
theories/PropertiesMink.v
theories/AtmoModel.v
theories/AtmoSpec.v
theories/PropertiesAtmo.v
theories/AccrModel.v
theories/PropertiesAccr.v
