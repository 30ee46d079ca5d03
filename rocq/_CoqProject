-Q theories Verif
theories/PyBase.v
theories/PyBaseFacts.v
theories/Interp.v
theories/InterpSpec.v
theories/InterpProofs.v
theories/InterpRows.v
theories/InterpRows2.v
theories/InterpArrays.v
theories/CellaveProofs.v
theories/InterpDeps.v
theories/InterpProps.v
theories/PyDict.v
theories/PyDictFacts.v
theories/Misc.v
theories/MiscSpec.v
theories/MiscProofs.v
theories/MiscFacts.v
theories/MiscProps.v
theories/Grid.v
theories/GridSpec.v
theories/GridProofs.v
theories/GridProps.v
theories/Regrid.v
theories/RegridProps.v
theories/DictMerge.v
theories/DictMergeSpec.v
theories/DictMergeProofs.v
theories/DictMergeProps.v
theories/DictMergeFull.v
theories/DictMergeSteps.v
theories/ChoiceDoc.v
theories/ChoiceDocProps.v
theories/ChoiceFmtProps.v
theories/CliValues.v
theories/CliValuesProps.v
theories/ValList.v
theories/ValListSpec.v
theories/ValListProps.v
theories/InterpUnitsSpec.v
theories/InterpUnits.v
theories/InterpUnitsProps.v
theories/InterpUnitsCell.v
theories/DictHeap.v
theories/DictHeapSpec.v
theories/DictHeapProofs.v
theories/DictHeapProps.v
theories/Geo.v
theories/GeoSpec.v
theories/GeoProofs.v
theories/GeoProps.v
theories/Labelled.v
theories/Coords.v
theories/CoordsSpec.v
theories/CoordsProofs.v
theories/TransposeProps.v
theories/FlushProofs.v
theories/FlushProofs2.v
theories/FlushProps.v
theories/RegridND.v
theories/RegridNDProps.v
theories/PyRe.v
theories/Options.v
theories/OptionsSpec.v
theories/OptionsProofs.v
theories/OptionsProps.v
theories/PyReFacts.v
theories/SGLoc.v
theories/SGLocSpec.v
theories/SGLocProofs.v
theories/SGLocProps.v
theories/SGLocFmt.v
theories/CFInherit.v
theories/CFInheritSpec.v
theories/CFInheritProofs.v
theories/CFInheritProofs2.v
theories/CFInheritProofs3.v
theories/CFInheritProps.v
theories/CFInheritProps2.v
theories/CFSearch.v
theories/CFSearchSpec.v
theories/CFSearchProofs.v
theories/CFSearchProps.v
theories/CFDimsProps.v
theories/CFCurrent.v
theories/CFCurrentSpec.v
theories/CFCurrentProps.v
theories/Validators.v
theories/ValidatorsSpec.v
theories/ValidatorsProps.v
theories/CfgNames.v
theories/CfgNamesSpec.v
theories/CfgNamesProps.v
theories/CfgTree.v
theories/CfgTreeSpec.v
theories/CfgTreeProps.v
theories/CfgFilterProps.v
theories/Filter.v
theories/FilterSpec.v
theories/FilterProps.v
theories/KernelProps.v
theories/FilterIso.v
theories/FilterIsoProps.v
theories/ErodeProps.v
theories/Sigma.v
theories/SigmaSpec.v
theories/SigmaProps.v
theories/FormulaTerms.v
theories/FormulaTermsSpec.v
theories/FormulaTermsProofs.v
theories/FormulaTermsProps.v
theories/SigmaTermsProps.v
theories/Color.v
theories/ColorProps.v
theories/CFLoad.v
theories/CFLoadSpec.v
theories/CFLoadProofs.v
theories/CFLoadProps.v
theories/CFCopy.v
theories/CFCopyProps.v
theories/Grid2D.v
theories/Grid2DProps.v
theories/CFFormat.v
theories/CFFormatSpec.v
theories/CFFormatProps.v
theories/CfgArgs.v
theories/CfgArgsSpec.v
theories/CfgArgsProps.v
theories/CfgParser.v
theories/CfgParserProofs.v
theories/CfgParserProps.v
theories/Access.v
theories/AccessSpec.v
theories/AccessProps.v
theories/ValScalar.v
theories/ValScalarSpec.v
theories/ValScalarProps.v
theories/ValScalarMore.v
theories/ValRegistry.v
theories/ValRegistrySpec.v
theories/ValRegistryProps.v
theories/RemDef.v
theories/RemDefSpec.v
theories/RemDefProps.v
theories/ResetFile.v
theories/ResetFileProps.v
theories/CFGetters.v
theories/CFGettersProps.v
theories/Enums.v
theories/EnumsProps.v
theories/CfgHelp.v
theories/CfgHelpProps.v
theories/BoolSpec.v
theories/BoolSpecProps.v
theories/DimTypes.v
theories/DimTypesProps.v
theories/InterpG.v
theories/InterpGSame.v
theories/InterpGSpec.v
theories/InterpGFacts.v
theories/InterpGArrays.v
theories/Float64.v
theories/Float64Facts.v
theories/Float64Err.v
theories/Float64Spec.v
theories/Float64Lin.v
theories/Float64Rows.v
theories/Float64Poly.v
theories/Float64PolyRows.v
theories/Float64Extrap.v
theories/Float64Props.v
theories/Float64App.v
theories/Float64PolyErr.v
theories/Float64PolyProps.v
theories/CFShippedData.v
theories/CFShipped.v
theories/CFShippedSpec.v
theories/CFShippedProofs.v
theories/CFShippedProps.v
theories/CFShippedValid.v
theories/CFDisk.v
theories/CFDiskSpec.v
theories/CFDiskProofs.v
theories/CFDiskProps.v
theories/InterpGCell.v
theories/Float64CellSpec.v
theories/Float64Cell.v
theories/Float64CellRows.v
theories/Float64CellProps.v
theories/CellaveExtrap.v
theories/SigmaG.v
theories/SigmaGSame.v
theories/Sigma64Spec.v
theories/Sigma64.v
theories/Sigma64Props.v
theories/Sigma64Order.v
theories/GridG.v
theories/GridGProofs.v
theories/GridGSame.v
theories/Edges64Spec.v
theories/Edges64Props.v
theories/OptThreads.v
theories/OptThreadsSpec.v
theories/OptThreadsProofs.v
theories/OptThreadsSafe.v
theories/OptThreadsProps.v
theories/CFThreads.v
theories/CFThreadsSpec.v
theories/CFThreadsProofs.v
theories/CFThreadsProps.v
theories/CfgRst.v
theories/CfgRstSpec.v
theories/CfgRstProofs.v
theories/CfgRstProps.v
theories/CfgSpecs.v
theories/CfgSpecsProofs.v
theories/CfgSpecsProps.v
theories/CfgSpecsFrame.v
theories/Linear4d.v
theories/Linear4dProps.v
theories/ErodeDims.v
theories/ErodeDimsProps.v
theories/RegridNDG.v
theories/RegridNDGSame.v
theories/RegridNDGProofs.v
theories/RegridND64Spec.v
theories/RegridND64Props.v
theories/Cli.v
theories/CliProps.v
theories/Grid2DG.v
theories/Grid2DGSame.v
theories/Edges2D64Facts.v
theories/Edges2D64Spec.v
theories/Edges2D64Props.v
theories/Opt2Rst.v
theories/Opt2RstSpec.v
theories/Opt2RstProofs.v
theories/Opt2RstProps.v
theories/Dates.v
theories/DatesSpec.v
theories/DatesProps.v
theories/RegridUnitsSpec.v
theories/RegridUnits.v
theories/RegridUnitsProps.v
theories/FilterUnitsSpec.v
theories/FilterUnits.v
theories/FilterUnitsProps.v
theories/FilterDimsSpec.v
theories/FilterDims.v
theories/FilterDimsProps.v
theories/CellaveDep.v
theories/RegridLocal.v
theories/RegridLocalProps.v
