-Q theories Verif
theories/Py.v
theories/PyProofs.v
theories/OutputsModel.v
theories/OutputsSpec.v
theories/OutputsProofs.v
theories/OutputsTheorems.v
theories/RequestModel.v
theories/RequestSpec.v
theories/RequestProofs.v
theories/RequestTheorems.v
theories/SaveModel.v
theories/SaveSpec.v
theories/SaveProofs.v
theories/SaveTheorems.v
theories/ContactModel.v
theories/ContactSpec.v
theories/ContactProofs.v
theories/ContactTheorems.v
theories/MaterialModel.v
theories/MaterialSpec.v
theories/MaterialProofs.v
theories/MaterialTheorems.v
theories/HeightModel.v
theories/HeightSpec.v
theories/HeightProofs.v
theories/HeightTheorems.v
theories/SurfaceModel.v
theories/SurfaceSpec.v
theories/SurfaceProofs.v
theories/SurfaceTheorems.v
theories/GapModel.v
theories/GapSpec.v
theories/GapProofs.v
theories/GapTheorems.v
theories/ConvModel.v
theories/ConvSpec.v
theories/ConvProofs.v
theories/ConvTheorems.v
theories/InfluenceModel.v
theories/InfluenceSpec.v
theories/InfluenceProofs.v
theories/InfluenceTheorems.v
theories/Flt.v
theories/SolverModel.v
theories/SolverSpec.v
theories/SolverProofs.v
theories/CgProofs.v
theories/SolverTheorems.v
theories/BoundSpec.v
theories/BoundProofs.v
theories/BoundTheorems.v
theories/DisplaceModel.v
theories/DisplaceSpec.v
theories/DisplaceProofs.v
theories/DisplaceTheorems.v
theories/TdmaModel.v
theories/TdmaSpec.v
theories/TdmaProofs.v
theories/TdmaTheorems.v
theories/ReynoldsModel.v
theories/ReynoldsSpec.v
theories/ReynoldsProofs.v
theories/ReynoldsTheorems.v
theories/LubricantModel.v
theories/LubricantSpec.v
theories/LubricantProofs.v
theories/LubricantTheorems.v
theories/StepModel.v
theories/StepSpec.v
theories/StepProofs.v
theories/StepTheorems.v
theories/SemiModel.v
theories/SemiSpec.v
theories/SemiProofs.v
theories/SemiTheorems.v
theories/SemiExamples.v
theories/SubsModel.v
theories/SubsSpec.v
theories/SubsProofs.v
theories/SubsTheorems.v
theories/SlipTheorems.v
theories/RoughModel.v
theories/RoughSpec.v
theories/RoughProofs.v
theories/RoughTheorems.v
theories/SummitTheorems.v
theories/AreaTheorems.v
theories/OverrideModel.v
theories/OverrideSpec.v
theories/OverrideProofs.v
theories/OverrideTheorems.v
theories/FileNumModel.v
theories/FileNumSpec.v
theories/FileNumProofs.v
theories/FileNumTheorems.v
theories/HertzModel.v
theories/HertzSpec.v
theories/HertzProofs.v
theories/HertzTheorems.v
theories/HertzFullModel.v
theories/HertzFullSpec.v
theories/HertzIntProofs.v
theories/HertzFullProofs.v
theories/HertzFullTheorems.v
theories/HertzStressTheorems.v
theories/FilterModel.v
theories/FilterSpec.v
theories/FilterProofs.v
theories/FilterTheorems.v
theories/DftProofs.v
theories/PerezModel.v
theories/PerezSpec.v
theories/PerezProofs.v
theories/PerezTheorems.v
theories/FractalModel.v
theories/FractalSpec.v
theories/FractalProofs.v
theories/FractalTheorems.v
theories/JohnsonModel.v
theories/JohnsonSpec.v
theories/JohnsonProofs.v
theories/JohnsonTheorems.v
theories/TstModel.v
theories/TstSpec.v
theories/TstProofs.v
theories/TstTheorems.v
theories/AliconaModel.v
theories/AliconaSpec.v
theories/AliconaProofs.v
theories/AliconaTheorems.v
theories/TstRoundProofs.v
theories/GeometricModel.v
theories/GeometricSpec.v
theories/GeometricProofs.v
theories/GeometricTheorems.v
theories/HolesModel.v
theories/HolesSpec.v
theories/HolesProofs.v
theories/HolesTheorems.v
theories/SpectraModel.v
theories/SpectraSpec.v
theories/SpectraProofs.v
theories/SpectraTheorems.v
theories/FreqModel.v
theories/FreqSpec.v
theories/FreqTheorems.v
theories/InterferenceModel.v
theories/InterferenceSpec.v
theories/InterferenceProofs.v
theories/InterferenceTheorems.v
theories/EqualModel.v
theories/EqualSpec.v
theories/EqualProofs.v
theories/EqualTheorems.v
theories/LoadModel.v
theories/LoadSpec.v
theories/LoadProofs.v
theories/LoadTheorems.v
theories/ResultsModel.v
theories/ResultsSpec.v
theories/ResultsProofs.v
theories/ResultsTheorems.v
theories/ShowModel.v
theories/ShowSpec.v
theories/ShowProofs.v
theories/ShowTheorems.v
theories/CheckModel.v
theories/CheckSpec.v
theories/CheckProofs.v
theories/CheckTheorems.v
theories/RealiseModel.v
theories/RealiseSpec.v
theories/RealiseProofs.v
theories/RealiseTheorems.v
theories/RunModel.v
theories/RunSpec.v
theories/RunProofs.v
theories/RunTheorems.v
theories/TouchModel.v
theories/TouchSpec.v
theories/TouchHonest.v
theories/TouchProofs.v
theories/TouchTheorems.v
theories/EllipseModel.v
theories/EllipseSpec.v
theories/EllipseProofs.v
theories/EllipseTheorems.v
theories/JacobModel.v
theories/JacobSpec.v
theories/JacobProofs.v
theories/JacobTheorems.v
theories/RoundModel.v
theories/RoundSpec.v
theories/RoundProofs.v
theories/RoundTheorems.v
theories/SlModel.v
theories/SlSpec.v
theories/SlProofs.v
theories/SlTheorems.v
theories/ClockModel.v
theories/ClockSpec.v
theories/ClockProofs.v
theories/ClockTheorems.v
theories/CerrutiSpec.v
theories/CerrutiProofs.v
theories/CerrutiTheorems.v
theories/DecaySpec.v
theories/DecayProofs.v
theories/DecayTheorems.v
theories/NumTextSpec.v
theories/NumTextTheorems.v
theories/UniqueSpec.v
theories/UniqueProofs.v
theories/UniqueTheorems.v
theories/TextureSpec.v
theories/TextureProofs.v
theories/TextureTheorems.v
theories/BearingTheorems.v
theories/LowPassSpec.v
theories/LowPassTheorems.v
theories/ApartTheorems.v
theories/LubNamesTheorems.v
theories/MaskTheorems.v
theories/CodeTheorems.v
theories/CoreTheorems.v
theories/InsideTheorems.v
theories/FractionTheorems.v
theories/TenTheorems.v
theories/FilteredTheorems.v
theories/FlatTheorems.v
theories/HoleTheorems.v
theories/DensityTheorems.v
