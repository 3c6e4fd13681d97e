-Q theories Verif
theories/Vec.v
theories/VecLemmas.v
theories/Num.v
theories/NumLemmas.v
theories/SnellModel.v
theories/SnellSpec.v
theories/SnellProofs.v
theories/P_Snell.v
theories/RayModel.v
theories/SurfaceModel.v
theories/MaterialModel.v
theories/SequenceSpec.v
theories/SequenceProofs.v
theories/SagModel.v
theories/SequenceExamples.v
theories/P_Sequence.v
theories/SagSpec.v
theories/SagNormalProofs.v
theories/SagInterceptProofs.v
theories/SagMoreProofs.v
theories/SagExamples.v
theories/P_Sag.v
theories/ExtNum.v
theories/SagInfModel.v
theories/SagInfProofs.v
theories/SagFloatModel.v
theories/SagFloatSpec.v
theories/SagFloatProofs.v
theories/P_SagInf.v
theories/Trig.v
theories/TrigLemmas.v
theories/AngleModel.v
theories/AngleProofs.v
theories/P_Angle.v
theories/ApertureModel.v
theories/ApertureSpec.v
theories/ApertureProofs.v
theories/ApertureProofs2.v
theories/SectorProofs.v
theories/WireFloatModel.v
theories/WireProofs.v
theories/ApertureFlagProofs.v
theories/PolygonTest.v
theories/PolygonTestProofs.v
theories/P_Aperture.v
theories/RulingModel.v
theories/RulingSpec.v
theories/RulingProofs.v
theories/GrooveProofs.v
theories/P_Ruling.v
theories/ComplexModel.v
theories/ProfileModel.v
theories/LayerModel.v
theories/ComplexLemmas.v
theories/LayerSpec.v
theories/LayerProofs.v
theories/LayerTrivialProofs.v
theories/EnergyProofs.v
theories/AbsorbanceProofs.v
theories/LayerClaimProofs.v
theories/LayerCaseProofs.v
theories/LayerSignProofs.v
theories/P_Layer.v
theories/GaussLemmas.v
theories/ProfileSpec.v
theories/ProfileProofs.v
theories/ProfileWidthProofs.v
theories/P_Profile.v
theories/SystemModel.v
theories/SystemSpec.v
theories/SystemProofs.v
theories/SystemTraceProofs.v
theories/SystemRetraceProofs.v
theories/SystemExamples.v
theories/P_System.v
theories/RamanathanModel.v
theories/SensorModel.v
theories/DiffusionModel.v
theories/DistSpec.v
theories/DistProofs.v
theories/SensorSpec.v
theories/SensorCollectProofs.v
theories/SensorProofs.v
theories/SensorStatProofs.v
theories/SensorExamples.v
theories/StackSpec.v
theories/StackProofs.v
theories/StackExamples.v
theories/P_Stack.v
theories/P_Sensor.v
theories/MonteCarloSpec.v
theories/MonteCarloProofs.v
theories/ParallelModel.v
theories/ParallelProofs.v
theories/DepthProofs.v
theories/MonteCarloMeanSpec.v
theories/MonteCarloMeanProofs.v
theories/MonteCarloExamples.v
theories/DiffusionSpec.v
theories/MonteCarloClaimProofs.v
theories/P_MonteCarlo.v
theories/DiffusionProofs.v
theories/P_Diffusion.v
theories/DistortionModel.v
theories/DistortionProofs.v
theories/P_Distortion.v
theories/TableModel.v
theories/TableSpec.v
theories/TableProofs.v
theories/P_Tables.v
theories/FormulaModel.v
theories/FormulaSpec.v
theories/FormulaProofs.v
theories/P_Formula.v
theories/CellModel.v
theories/CellSpec.v
theories/CellProofs.v
theories/P_Cells.v
theories/ShapeModel.v
theories/ShapeSpec.v
theories/ShapeProofs.v
theories/P_Shapes.v
theories/ApproxModel.v
theories/ApproxSpec.v
theories/ApproxProofs.v
theories/P_Approx.v
theories/ImageModel.v
theories/ImageSpec.v
theories/ImageProofs.v
theories/ImageExamples.v
theories/P_Image.v
theories/FitModel.v
theories/FitSpec.v
theories/FitProofs.v
theories/FitSolver.v
theories/FitMapProofs.v
theories/P_Fit.v
theories/QuantumModel.v
theories/QuantumSpec.v
theories/QuantumProofs.v
theories/QuantumMethodProofs.v
theories/QuantumCaseProofs.v
theories/QuantumExamples.v
theories/P_Quantum.v
theories/MixinModel.v
theories/MixinSpec.v
theories/MixinProofs.v
theories/P_Mixin.v
theories/DrawModel.v
theories/DrawSpec.v
theories/DrawProofs.v
theories/DrawExamples.v
theories/P_Draw.v
theories/PrintModel.v
theories/PrintSpec.v
theories/PrintProofs.v
theories/P_Print.v
theories/MaterialSpec.v
theories/MaterialProofs.v
theories/P_Material.v
theories/StopRayModel.v
theories/StopRaySpec.v
theories/StopRayProofs.v
theories/StopRayExamples.v
theories/P_StopRay.v
theories/StopTraceProofs.v
theories/StopTraceExamples.v
theories/P_StopTrace.v
theories/RayOpsModel.v
theories/RayOpsSpec.v
theories/RayOpsProofs.v
theories/P_RayOps.v
theories/CornerModel.v
theories/CornerSpec.v
theories/CornerProofs.v
theories/CornerExamples.v
theories/P_Corner.v
theories/SpotModel.v
theories/SpotSpec.v
theories/SpotProofs.v
theories/P_Spot.v
theories/AxesModel.v
theories/AxesSpec.v
theories/AxesProofs.v
theories/P_Axes.v
theories/CurvedSpec.v
theories/CurvedProofs.v
theories/CurvedSagProofs.v
theories/CurvedStopProofs.v
theories/CurvedExamples.v
theories/P_Curved.v
theories/CoatingModel.v
theories/ScaleSpec.v
theories/ScaleProofs.v
theories/ScaleClassProofs.v
theories/ScalePartProofs.v
theories/ScaleLayerSpec.v
theories/ScaleLayerProofs.v
theories/ScaleExamples.v
theories/P_Scale.v
theories/SymmetrySpec.v
theories/SymmetryProofs.v
theories/SymmetryClassProofs.v
theories/SymmetryPartProofs.v
theories/SymmetryExamples.v
theories/P_Symmetry.v
theories/OrderSpec.v
theories/OrderProofs.v
theories/OrderSumProofs.v
theories/OrderSurfaceProofs.v
theories/P_Order.v
theories/CoatingProofs.v
theories/SlabProofs.v
theories/P_Coating.v
theories/SiliconSpec.v
theories/SiliconProofs.v
theories/P_Silicon.v
theories/PairData.v
theories/PairTableModel.v
theories/PairTableSpec.v
theories/PairTableProofs.v
theories/PairYieldProofs.v
theories/PairDrawProofs.v
theories/PairMethodProofs.v
theories/PairEdgeProofs.v
theories/P_PairTable.v
theories/PairFinishSpec.v
theories/MonteCarloFinishProofs.v
theories/P_Finish.v
theories/ChemicalData.v
theories/ChemicalModel.v
theories/ChemicalSpec.v
theories/ChemicalProofs.v
theories/ChemicalSensorProofs.v
theories/ChemicalExamples.v
theories/P_Chemical.v
theories/AllOrderSpec.v
theories/AllOrderProofs.v
theories/P_AllOrder.v
theories/FactoryModel.v
theories/FactorySpec.v
theories/FactoryProofs.v
theories/FactoryExamples.v
theories/P_Factory.v
theories/TargetModel.v
theories/TargetSpec.v
theories/TargetProofs.v
theories/P_Target.v
theories/FocusSpec.v
theories/FocusProofs.v
theories/FocusExamples.v
theories/P_Focus.v
theories/InvariantSpec.v
theories/InvariantProofs.v
theories/InvariantExamples.v
theories/P_Invariant.v
theories/DepletionModel.v
theories/DepletionSpec.v
theories/DepletionProofs.v
theories/P_Depletion.v
theories/FermatSpec.v
theories/FermatProofs.v
theories/FermatExamples.v
theories/P_Fermat.v
theories/GratingSpec.v
theories/GratingProofs.v
theories/GratingExamples.v
theories/P_Grating.v
theories/FresnelSpec.v
theories/FresnelProofs.v
theories/FresnelExamples.v
theories/P_Fresnel.v
theories/ReciprocitySpec.v
theories/ReciprocityProofs.v
theories/ReciprocityExamples.v
theories/P_Reciprocity.v
theories/OpaqueSpec.v
theories/OpaqueProofs.v
theories/OpaqueExamples.v
theories/P_Opaque.v
theories/ParaxialSpec.v
theories/ParaxialProofs.v
theories/ParaxialImageProofs.v
theories/ParaxialExamples.v
theories/P_Paraxial.v
theories/ExposureModel.v
theories/ExposureSpec.v
theories/ExposureProofs.v
theories/ExposureExamples.v
theories/P_Exposure.v
theories/MeasureModel.v
theories/MeasureSpec.v
theories/MeasureProofs.v
theories/MeasureExamples.v
theories/P_Measure.v
theories/IntegrateSpec.v
theories/IntegrateProofs.v
theories/IntegrateExamples.v
theories/P_Integrate.v
theories/ReadoutModel.v
theories/ReadoutProofs.v
theories/P_Readout.v
theories/RowlandSpec.v
theories/RowlandProofs.v
theories/RowlandExamples.v
theories/P_Rowland.v
