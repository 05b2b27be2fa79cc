-Q theories Verif
theories/AscModel.v
theories/AscProofs.v
theories/AscProps.v
theories/AscSpec.v
theories/BasModel.v
theories/BasProofs.v
theories/BasProofs2.v
theories/BasProps.v
theories/BasSpec.v
theories/Base.v
theories/BaseLemmas.v
theories/CalcCellProofs.v
theories/CalcModel.v
theories/CalcProofs.v
theories/CalcProofs2.v
theories/CalcProps.v
theories/CalcSpec.v
theories/CalcVecModel.v
theories/CalcVecProofs.v
theories/CalcVecProofs2.v
theories/CalcVecProps.v
theories/CalcVecSpec.v
theories/CatModel.v
theories/CatProofs.v
theories/CatProps.v
theories/CatSpec.v
theories/CbcCleanProofs.v
theories/CbcClustProofs.v
theories/CbcIndexProofs.v
theories/CbcLoopProofs.v
theories/CbcMergeProofs.v
theories/CbcModel.v
theories/CbcMoreProofs.v
theories/CbcOrdModel.v
theories/CbcOrdProofs.v
theories/CbcOrdProps.v
theories/CbcOrdSpec.v
theories/CbcProps.v
theories/CbcSpec.v
theories/CbcStepProofs.v
theories/ComModel.v
theories/ComProofs.v
theories/ComProps.v
theories/ComSpec.v
theories/ConfFilesProofs.v
theories/ConfModel.v
theories/ConfProofs.v
theories/ConfProps.v
theories/ConfSpec.v
theories/CorpusColProofs.v
theories/CorpusExamples.v
theories/CorpusModel.v
theories/CorpusMoreProofs.v
theories/CorpusProofs.v
theories/CorpusProps.v
theories/CorpusSegProofs.v
theories/CorpusSpec.v
theories/CorpusTokProofs.v
theories/CpyModel.v
theories/CpyProofs.v
theories/CpyProps.v
theories/CpySpec.v
theories/DenseAgreeProofs.v
theories/DenseModel.v
theories/DenseProofs.v
theories/DenseProps.v
theories/DenseSpec.v
theories/DepCountProofs.v
theories/DepEmbProofs.v
theories/DepFullProofs.v
theories/DepFullSpec.v
theories/DepGraphProofs.v
theories/DepLinearProofs.v
theories/DepMainProofs.v
theories/DepMatchProofs.v
theories/DepModel.v
theories/DepProps.v
theories/DepReadProofs.v
theories/DepSpec.v
theories/DepTotalProofs.v
theories/DepTreeProofs.v
theories/DepUseProofs.v
theories/DrlModel.v
theories/DrlProofs.v
theories/DrlProofs2.v
theories/DrlProps.v
theories/DrlSpec.v
theories/EndModel.v
theories/EndProofs.v
theories/EndProofs2.v
theories/EndProps.v
theories/EndSpec.v
theories/GetModel.v
theories/GetProofs.v
theories/GetProps.v
theories/GetSpec.v
theories/GrfModel.v
theories/GrfProofs.v
theories/GrfProofs2.v
theories/GrfProofs3.v
theories/GrfProofs4.v
theories/GrfProps.v
theories/GrfSpec.v
theories/HndModel.v
theories/HndProofs.v
theories/HndProps.v
theories/HndSpec.v
theories/IdxModel.v
theories/IdxProofs.v
theories/IdxProps.v
theories/IdxSpec.v
theories/JsonModel.v
theories/JsonProofs.v
theories/LogModel.v
theories/LogProofs.v
theories/LogProofs2.v
theories/LogProofs3.v
theories/LogProps.v
theories/LogSpec.v
theories/MulProofs.v
theories/MulProps.v
theories/MulSpec.v
theories/MxCellProofs.v
theories/MxElemProofs.v
theories/MxFileModel.v
theories/MxFileProofs.v
theories/MxFileProps.v
theories/MxMergeProofs.v
theories/MxModel.v
theories/MxMoreProofs.v
theories/MxOpsProofs.v
theories/MxProofs.v
theories/MxProps.v
theories/MxSimModel.v
theories/MxSimProofs.v
theories/MxSpec.v
theories/MxTtmProofs.v
theories/MxTypedModel.v
theories/MxTypedProofs.v
theories/ParColModel.v
theories/ParColProofs.v
theories/ParColProps.v
theories/ParColSpec.v
theories/ParModel.v
theories/ParProofs.v
theories/ParProps.v
theories/ParStrayProofs.v
theories/ParStrayProps.v
theories/ParUseProofs.v
theories/PatModel.v
theories/PatProofs.v
theories/PatProps.v
theories/PatSpec.v
theories/PipeModel.v
theories/PipeProofs.v
theories/PipeProofs2.v
theories/PipeProps.v
theories/PipeSpec.v
theories/QryModel.v
theories/QryProofs.v
theories/QryProps.v
theories/QrySpec.v
theories/RelProofs.v
theories/RelProps.v
theories/SavModel.v
theories/SavProofs.v
theories/SavProofs2.v
theories/SavProps.v
theories/SavSpec.v
theories/ShowModel.v
theories/ShowProofs.v
theories/ShowProps.v
theories/ShowSpec.v
theories/Str.v
theories/StrLemmas.v
theories/TermsModel.v
theories/TermsProofs.v
theories/TermsProps.v
theories/TmpModel.v
theories/TmpProofs.v
theories/TmpProps.v
theories/TmpSpec.v
theories/TokMxModel.v
theories/TokMxMoreProofs.v
theories/TokMxPipeProofs.v
theories/TokMxProofs.v
theories/TokMxProps.v
theories/TokMxSpec.v
theories/TutModel.v
theories/TutProofs.v
theories/TutProofs2.v
theories/TutProps.v
theories/TutSpec.v
theories/UtlModel.v
theories/UtlProofs.v
theories/UtlProps.v
theories/UtlSpec.v
theories/VocabFileModel.v
theories/VocabFileProofs.v
theories/VocabModel.v
theories/VocabProofs.v
theories/VocabProps.v
theories/VocabSpec.v
