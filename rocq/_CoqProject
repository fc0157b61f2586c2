-Q theories Verif
theories/Base.v
theories/BaseLemmas.v
theories/BitsModel.v
theories/BitsSpec.v
theories/BitsProofs.v
theories/BitsProps.v
theories/ShaModel.v
theories/ShaSpec.v
theories/MemncpyProofs.v
theories/ShaProofs.v
theories/ShaProps.v
theories/Heap.v
theories/Bytes.v
theories/StrModel.v
theories/StrSpec.v
theories/StrProofs.v
theories/StrProps.v
theories/StrArrModel.v
theories/StrArrSpec.v
theories/StrArrProofs.v
theories/StrArrProps.v
theories/MemModel.v
theories/MemSpec.v
theories/MemProofs.v
theories/MemProps.v
theories/VecModel.v
theories/VecSpec.v
theories/VecProofs.v
theories/VecProps.v
theories/LexModel.v
theories/LexSpec.v
theories/LexProofs.v
theories/LexProps.v
theories/CsvModel.v
theories/CsvSpec.v
theories/CsvProofs.v
theories/CsvProofs2.v
theories/CsvProps.v
theories/DfModel.v
theories/DfSpec.v
theories/DfProofs.v
theories/DfProofs2.v
theories/DfProps.v
theories/DfCsvSpec.v
theories/DfCsvProofs.v
theories/DfCsvProofs2.v
theories/DfCsvProps.v
theories/JsonModel.v
theories/JsonSpec.v
theories/JsonLexProofs.v
theories/JsonProofs.v
theories/JsonParseProofs.v
theories/JsonParse2.v
theories/JsonPrintProofs.v
theories/JsonApiProofs.v
theories/JsonProps.v
theories/OptModel.v
theories/OptSpec.v
theories/OptProofs.v
theories/OptProps.v
theories/GraphModel.v
theories/GraphSpec.v
theories/GraphProofs.v
theories/GraphProps.v
theories/Dbl.v
theories/UsacModel.v
theories/UsacSpec.v
theories/UsacProofs.v
theories/UsacProps.v
theories/StatModel.v
theories/StatSpec.v
theories/StatProofs.v
theories/StatProps.v
theories/Gray.v
theories/FastTree.v
theories/FastModel.v
theories/FastSpec.v
theories/FastTreeProofs.v
theories/FastProofs.v
theories/FastNonmax.v
theories/FastPyr.v
theories/FastProps.v
theories/BriefModel.v
theories/BriefSpec.v
theories/BriefProofs.v
theories/BriefPyr.v
theories/BriefProps.v
theories/Flt.v
theories/Img.v
theories/HarrisModel.v
theories/HarrisSpec.v
theories/HarrisProofs.v
theories/HarrisProps.v
theories/FilterModel.v
theories/FilterSpec.v
theories/FilterProofs.v
theories/FilterProps.v
theories/ImgModel.v
theories/ImgSpec.v
theories/ImgProofs.v
theories/ImgNorm.v
theories/ImgBox.v
theories/ImgScale.v
theories/ImgEdge.v
theories/ImgProps.v
theories/PnmModel.v
theories/PnmSpec.v
theories/PnmProofs.v
theories/PnmRead.v
theories/PnmSave.v
theories/PnmConv.v
theories/PnmProps.v
theories/ImemModel.v
theories/ImemSpec.v
theories/ImemProofs.v
theories/ImemProps.v
theories/GeoModel.v
theories/GeoSpec.v
theories/GeoProofs.v
theories/GeoProps.v
theories/ProjModel.v
theories/ProjSpec.v
theories/NormProofs.v
theories/HomoProofs.v
theories/MarkProofs.v
theories/EpiProofs.v
theories/PinProofs.v
theories/ProjProps.v
theories/MatModel.v
theories/MatSpec.v
theories/MatProofs.v
theories/MatIo.v
theories/MatProps.v
theories/KeyModel.v
theories/KeySpec.v
theories/KeyProofs.v
theories/KeySave.v
theories/KeyProps.v
theories/SiftModel.v
theories/SiftSpec.v
theories/SiftProofs.v
theories/SiftCache.v
theories/SiftDogModel.v
theories/SiftDogSpec.v
theories/SiftDogProofs.v
theories/SiftHist.v
theories/SiftCell.v
theories/SiftOpt.v
theories/SiftProps.v
theories/SfmtModel.v
theories/SfmtSpec.v
theories/SfmtProofs.v
theories/SfmtArray.v
theories/SfmtServe.v
theories/SfmtCalls.v
theories/SfmtFloat.v
theories/SfmtMore.v
theories/GaussModel.v
theories/GaussSpec.v
theories/GaussProofs.v
theories/SfmtProps.v
theories/RansacModel.v
theories/RansacSpec.v
theories/RansacProofs.v
theories/RansacMore.v
theories/RansacProps.v
theories/FltErr.v
theories/WarpModel.v
theories/WarpSpec.v
theories/WarpProofs.v
theories/WarpPixel.v
theories/WarpRows.v
theories/WarpAll.v
theories/WarpRotate.v
theories/WarpProps.v
theories/ShrinkSpec.v
theories/ImgShrink.v
theories/ShrinkProps.v
theories/CmapData.v
theories/CmapModel.v
theories/CmapSpec.v
theories/CmapProofs.v
theories/CmapMore.v
theories/CmapImage.v
theories/CmapProps.v
theories/KernModel.v
theories/KernSpec.v
theories/KernProofs.v
theories/KernSmooth.v
theories/KernProps.v
theories/PyrModel.v
theories/PyrSpec.v
theories/PyrProofs.v
theories/PyrReal.v
theories/PyrImg.v
theories/PyrProps.v
theories/DmapModel.v
theories/DmapSpec.v
theories/DmapProofs.v
theories/DmapProps.v
theories/HdetModel.v
theories/HdetSpec.v
theories/HdetProofs.v
theories/HdetAdapt.v
theories/HdetProps.v
theories/BundleModel.v
theories/BundleSpec.v
theories/BundleProofs.v
theories/BundleProps.v
theories/AwpModel.v
theories/AwpSpec.v
theories/AwpProofs.v
theories/AwbModel.v
theories/AwbSpec.v
theories/AwbProofs.v
theories/AwpProps.v
theories/MomModel.v
theories/MomSpec.v
theories/MomProofs.v
theories/MomProps.v
theories/DsModel.v
theories/DsSpec.v
theories/DsProofs.v
theories/DsProofs2.v
theories/DsProps.v
theories/UhModel.v
theories/UhSpec.v
theories/UhProofs.v
theories/UhEnds.v
theories/UhMain.v
theories/UhProps.v
theories/JlogModel.v
theories/JlogSpec.v
theories/JlogProofs.v
theories/JlogMain.v
theories/JlogProps.v
theories/MlModel.v
theories/MlSpec.v
theories/MlProofs.v
theories/MlProps.v
theories/FvModel.v
theories/FvSpec.v
theories/FvProofs.v
theories/FvUnit.v
theories/FvAcc.v
theories/FvProps.v
theories/ChkModel.v
theories/ChkSpec.v
theories/ChkProofs.v
theories/ChkScore.v
theories/ChkProps.v
theories/OprModel.v
theories/OprSpec.v
theories/OprProofs.v
theories/OprProps.v
theories/LogModel.v
theories/LogSpec.v
theories/LogProofs.v
theories/LogProps.v
theories/GplModel.v
theories/GplSpec.v
theories/GplProofs.v
theories/GplProps.v
theories/IosModel.v
theories/IosProofs.v
theories/IosProps.v
theories/AnnModel.v
theories/AnnSpec.v
theories/AnnProofs.v
theories/AnnProps.v
theories/GcModel.v
theories/GcSpec.v
theories/GcProofs.v
theories/GcProps.v
theories/GlModel.v
theories/GlSpec.v
theories/GlProps.v
theories/ImfModel.v
theories/ImfSpec.v
theories/ImfProofs.v
theories/ImfProps.v
theories/ErfModel.v
theories/ErfProofs.v
theories/ErfProps.v
theories/SsModel.v
theories/SsSpec.v
theories/SsProofs.v
theories/SsProps.v
theories/PkModel.v
theories/PkSpec.v
theories/PkProofs.v
theories/PkProps.v
theories/PhModel.v
theories/PhProofs.v
theories/PhProps.v
theories/LapModel.v
theories/LapSpec.v
theories/LapProps.v
theories/NrModel.v
theories/NrSpec.v
theories/NrProofs.v
theories/NrProps.v
theories/ViModel.v
theories/ViSpec.v
theories/ViProofs.v
theories/ViProps.v
theories/BmModel.v
theories/BmSpec.v
theories/BmProps.v
theories/VhModel.v
theories/VhProps.v
theories/PanModel.v
theories/PanSpec.v
theories/PanProofs.v
theories/PanProps.v
theories/CmpModel.v
theories/CmpSpec.v
theories/CmpProofs.v
theories/CmpProps.v
