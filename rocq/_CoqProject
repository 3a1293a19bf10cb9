-Q theories Verif
theories/Base.v
theories/SolveModel.v
theories/SolveProofs.v
theories/RbfModel.v
theories/WendlandPD.v
theories/RbfProofs.v
theories/RbfProofs2.v
theories/ProfileModel.v
theories/ProfileSpec.v
theories/ProfileProofs.v
theories/ProfileProofs2.v
theories/ProfileProofs3.v
theories/ProfileProofs4.v
theories/CustomModel.v
theories/CustomSpec.v
theories/CustomProofs.v
theories/CustomProofs2.v
theories/CustomProofs3.v
theories/CustomProofs4.v
theories/CustomProofs5.v
theories/PropCustom.v
theories/NacaModel.v
theories/NacaBounds.v
theories/NacaSpec.v
theories/NacaProofs.v
theories/NacaProofs2.v
theories/NacaProofs3.v
theories/NacaProofs4.v
theories/NacaProofs5.v
theories/PropNaca.v
theories/BsplineModel.v
theories/BsplineSpec.v
theories/BsplineProofs.v
theories/BsplineProofs2.v
theories/BsplineProofs3.v
theories/BsplineProofs4.v
theories/PropBspline.v
theories/TextModel.v
theories/TextProofs.v
theories/ParamsModel.v
theories/ParamsSpec.v
theories/ParamsProofs.v
theories/ParamsProofs2.v
theories/ParamsProofs3.v
theories/ParamsProofs4.v
theories/TextSpec.v
theories/TextProofs2.v
theories/TextProofs3.v
theories/PropParams.v
theories/ErrorProofs.v
theories/PropText.v
theories/PropProfile.v
theories/WendlandProofs.v
theories/PropRbf.v
theories/LstsqModel.v
theories/LstsqSpec.v
theories/LstsqProofs.v
theories/DeformModel.v
theories/DeformSpec.v
theories/DeformProofs.v
theories/DeformProofs2.v
theories/DeformProofs3.v
theories/DeformProofs4.v
theories/DeformProofs5.v
theories/DeformProofs6.v
theories/DeformProofs7.v
theories/PropDeform.v
theories/BladeModel.v
theories/BladeSpec.v
theories/BladeProofs.v
theories/BladeProofs2.v
theories/BladeProofs3.v
theories/BladeProofs4.v
theories/BladeProofs5.v
theories/BladeProofs6.v
theories/BladeProofs7.v
theories/BladeProofs8.v
theories/PropBlade.v
theories/FormatModel.v
theories/FormatSpec.v
theories/FormatProofs.v
theories/PpgModel.v
theories/PpgSpec.v
theories/PpgProofs.v
theories/PpgProofs2.v
theories/PpgProofs3.v
theories/PpgFloatModel.v
theories/PpgFloatProofs.v
theories/PropPpg.v
theories/ObjModel.v
theories/ObjSpec.v
theories/ObjProofs.v
theories/PropellerModel.v
theories/PropellerSpec.v
theories/PropellerProofs.v
theories/PropellerProofs2.v
theories/PropPropeller.v
theories/PathModel.v
theories/PathSpec.v
theories/PathProofs.v
theories/PropPath.v
theories/ReverseModel.v
theories/ReverseSpec.v
theories/ReverseProofs.v
theories/ReverseProofs2.v
theories/ReverseProofs3.v
theories/ReverseProofs4.v
theories/ReverseProofs5.v
theories/ReverseProofs6.v
theories/ReverseProofs7.v
theories/ReconstructModel.v
theories/ReconstructProofs.v
theories/ReconstructProofs2.v
theories/ReconstructProofs3.v
theories/PropReverse.v
theories/ShaftModel.v
theories/ShaftSpec.v
theories/ShaftProofs.v
theories/PropShaft.v
theories/HeapModel.v
theories/HeapSpec.v
theories/HeapProofs.v
theories/HeapProofs2.v
theories/HeapProofs3.v
theories/PropHeap.v
theories/ExportModel.v
theories/ExportSpec.v
theories/ExportProofs.v
theories/ExportProofs2.v
theories/ExportProofs3.v
theories/PropExport.v
theories/ChordModel.v
theories/ChordSpec.v
theories/ChordProofs.v
theories/ChordProofs2.v
theories/PropChord.v
theories/CsvModel.v
theories/CsvSpec.v
theories/CsvProofs.v
theories/PropCsv.v
theories/FloatModel.v
theories/FloatSpec.v
theories/FloatProofs.v
theories/FloatProofs2.v
theories/PropFloat.v
theories/AmericanModel.v
theories/AmericanSpec.v
theories/AmericanProofs.v
theories/PropAmerican.v
theories/KernelPD.v
theories/KernelSeries.v
theories/KernelProofs.v
theories/KernelProofs2.v
theories/PropKernel.v
theories/AirfoilModel.v
theories/AirfoilSpec.v
theories/AirfoilProofs.v
theories/AirfoilProofs2.v
theories/AirfoilProofs3.v
theories/AirfoilProofs4.v
theories/AirfoilProofs5.v
theories/AirfoilProofs6.v
theories/PropAirfoil.v
theories/CamberModel.v
theories/CamberSpec.v
theories/CamberProofs.v
theories/CamberProofs2.v
theories/CamberProofs3.v
theories/PropCamber.v
theories/PrintModel.v
theories/PrintSpec.v
theories/SolidModel.v
theories/PrintProofs.v
theories/PropPrint.v
theories/HeapBladeModel.v
theories/HeapBladeSpec.v
theories/HeapBladeProofs.v
theories/HeapBladeProofs2.v
theories/HeapBladeProofs3.v
theories/HeapBladeProofs4.v
theories/HeapBladeProofs5.v
theories/PropHeapBlade.v
theories/SliceModel.v
theories/SliceSpec.v
theories/SliceProofs.v
theories/SliceProofs2.v
theories/PropSlice.v
theories/ReprModel.v
theories/ReprSpec.v
theories/ReprProofs.v
theories/ReprProofs2.v
theories/ReprProofs3.v
theories/ReprProofs4.v
theories/ReprProofs5.v
theories/ReprProofs6.v
theories/PropRepr.v
theories/ShapeFloatModel.v
theories/ShapeFloatSpec.v
theories/ShapeFloatProofs.v
theories/ShapeFloatProofs2.v
theories/ShapeFloatProofs3.v
theories/ShapeFloatProofs4.v
theories/ShapeFloatProofs5.v
theories/ShapeFloatProofs6.v
theories/ShapeFloatProofs7.v
theories/PropShapeFloat.v
theories/SectionFloatModel.v
theories/SectionFloatSpec.v
theories/SectionFloatProofs.v
theories/SectionFloatProofs2.v
theories/SectionFloatProofs3.v
theories/SectionFloatProofs4.v
theories/SectionFloatProofs5.v
theories/SectionFloatProofs6.v
theories/SectionFloatProofs7.v
theories/SectionFloatProofs8.v
theories/PropSectionFloat.v
theories/NacaFloatModel.v
theories/NacaFloatSpec.v
theories/NacaFloatProofs.v
theories/NacaFloatProofs2.v
theories/NacaFloatProofs3.v
theories/NacaFloatProofs4.v
theories/NacaFloatProofs5.v
theories/NacaFloatProofs6.v
theories/NacaFloatProofs7.v
theories/PropNacaFloat.v
theories/ValidNacaFloat.v
theories/NacaFiveModel.v
theories/NacaFiveSpec.v
theories/NacaFiveProofs.v
theories/NacaFiveProofs2.v
theories/NacaFiveProofs3.v
theories/PropNacaFive.v
theories/ValidNacaFive.v
theories/ChordFloatModel.v
theories/ChordFloatProofs.v
theories/ChordFloatProofs2.v
theories/ChordFloatProofs3.v
theories/ChordFloatProofs4.v
theories/ChordFloatProofs5.v
theories/ChordFloatProofs6.v
theories/PropChordFloat.v
theories/ChordSampleModel.v
theories/ChordSampleProofs.v
theories/PropChordSample.v
theories/WrapFloatModel.v
theories/WrapFloatSpec.v
theories/WrapFloatProofs.v
theories/PropWrapFloat.v
theories/PitchFloatModel.v
theories/PitchFloatSpec.v
theories/PitchFloatProofs.v
theories/PropPitchFloat.v
theories/RakeFloatModel.v
theories/RakeFloatSpec.v
theories/RakeFloatProofs.v
theories/PropRakeFloat.v
theories/TurnFloatModel.v
theories/TurnFloatSpec.v
theories/TurnFloatProofs.v
theories/PropTurnFloat.v
theories/PlaceFloatModel.v
theories/PlaceFloatSpec.v
theories/PlaceFloatProofs.v
theories/PropPlaceFloat.v
theories/LayFloatModel.v
theories/LayFloatSpec.v
theories/LayFloatProofs.v
theories/PropLayFloat.v
theories/RowFloatModel.v
theories/RowFloatSpec.v
theories/RowFloatProofs.v
theories/PropRowFloat.v
theories/Enclose.v
theories/ValidNacaData.v
theories/ValidNacaProofs.v
theories/ValidNaca.v
theories/ValidParamsData.v
theories/ValidParams.v
theories/ValidRepr.v
theories/ValidRbf.v
theories/ValidBladeData.v
theories/ValidBladeProofs.v
theories/ValidBlade.v
theories/ValidDeform.v
