-Q theories Verif
theories/Base.v
theories/MpiModel.v
theories/MpiProofs.v
theories/MpiProps.v
theories/ArrayModel.v
theories/ArrayProofs.v
theories/ArrayProps.v
theories/Array2dModel.v
theories/Array2dProps.v
theories/Array2dShapeProps.v
theories/OscilModel.v
theories/OscilProps.v
theories/ReshapeModel.v
theories/ReshapeProps.v
theories/BinningModel.v
theories/BinningProps.v
theories/RSum.v
theories/MeshModel.v
theories/MeshIndexProps.v
theories/MeshProofs.v
theories/MeshProps.v
theories/MeshWindowProps.v
theories/MeshKernelProps.v
theories/BinVecModel.v
theories/BinVecProps.v
theories/CSum.v
theories/ThreePtModel.v
theories/ThreePtProps.v
theories/OrderProps.v
theories/WignerProps.v
theories/SphHarmModel.v
theories/SphHarmProps.v
theories/Dft3.v
theories/CatModel.v
theories/NormModel.v
theories/CatProps.v
theories/NormProps.v
theories/NormMixProps.v
theories/FieldModel.v
theories/FieldProps.v
theories/CorrProps.v
theories/PowProps.v
theories/BispecModel.v
theories/BispecProps.v
theories/ShotProps.v
theories/PyCatModel.v
theories/PyCatProps.v
theories/PyColProps.v
theories/CounterModel.v
theories/CounterProps.v
theories/StrModel.v
theories/StrProps.v
theories/Dec.v
theories/MonitorModel.v
theories/MonitorProps.v
theories/ParamModel.v
theories/ParamProps.v
theories/ParamValProps.v
theories/ParamFixProps.v
theories/ParamFileModel.v
theories/ParamFileProps.v
theories/ParamFileUseProps.v
theories/ParamFilePrintProps.v
theories/ParamEnvProps.v
theories/LoadModel.v
theories/LoadProps.v
theories/PyParamModel.v
theories/PyParamProofs.v
theories/PyParamAgainProps.v
theories/PyParamProps.v
theories/PyAmalgModel.v
theories/PyAmalgProps.v
theories/MultipoleModel.v
theories/MultipoleProps.v
theories/LegendreProps.v
theories/WinFormulaModel.v
theories/WinFormulaProps.v
theories/WinMatModel.v
theories/WinMatProps.v
theories/WindowModel.v
theories/WindowProps.v
theories/FileNameModel.v
theories/FileNameProps.v
theories/Dft.v
theories/FftlogModel.v
theories/FftlogProofs.v
theories/FftlogProps.v
theories/TransformModel.v
theories/TransformProps.v
theories/WinConvModel.v
theories/WinConvProps.v
theories/WinConvSumProps.v
theories/WinConvRangeProps.v
theories/WinConvCases.v
theories/SugiyamaProps.v
theories/ThreePcfProps.v
theories/TranslateProps.v
theories/BoxShotProps.v
theories/AliasProps.v
theories/MainModel.v
theories/MainProps.v
theories/PyRunModel.v
theories/PyRunProps.v
theories/PyBoxProps.v
theories/PyWinProps.v
theories/PyLetterProps.v
theories/PyGivenProps.v
theories/PyAgainProps.v
theories/SaveModel.v
theories/SaveProps.v
theories/SaveHeadProps.v
theories/SaveEndProps.v
theories/FourierConvModel.v
theories/FourierConvProps.v
theories/FourierConv3Props.v
theories/FourierConvCases.v
theories/FourierConvPointProps.v
theories/FourierConvResampleProps.v
theories/CoeffModel.v
theories/CoeffProps.v
theories/CoeffTableProps.v
theories/ExtrapLinearProps.v
theories/FourierConvLinearProps.v
theories/WinMatConvModel.v
theories/WinMatConvProps.v
theories/FieldMeshModel.v
theories/FieldMeshProps.v
theories/PyLogModel.v
theories/PyLogProps.v
theories/DirModel.v
theories/DirProps.v
theories/H5Model.v
theories/H5Props.v
theories/ResampleModel.v
theories/ResampleProps.v
theories/BinRoundModel.v
theories/BinRoundProps.v
theories/PyReadModel.v
theories/PyReadProps.v
theories/WinTextModel.v
theories/WinTextProps.v
theories/LatexModel.v
theories/LatexProps.v
theories/EnvModel.v
theories/EnvProps.v
theories/NpzModel.v
theories/NpzProps.v
theories/MeshRoundModel.v
theories/MeshRoundProps.v
theories/GammaModel.v
theories/GammaProofs.v
theories/GammaProps.v
