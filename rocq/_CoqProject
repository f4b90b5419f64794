-Q theories Verif
theories/Base.v
theories/VarintModel.v
theories/VarintSpec.v
theories/VarintProofs.v
theories/VarintProps.v
theories/DeltaTables.v
theories/DeltaModel.v
theories/DeltaSpec.v
theories/DeltaApplyProofs.v
theories/DeltaCreateProofs.v
theories/DeltaProps.v
theories/CStr.v
theories/OidModel.v
theories/OidSpec.v
theories/OidProofs.v
theories/OidProps.v
theories/Arr.v
theories/PQueueModel.v
theories/PQueueProofs.v
theories/PQueueProps.v
theories/TsortModel.v
theories/TsortSpec.v
theories/TsortProofs.v
theories/TsortHeight.v
theories/TsortTop.v
theories/TsortProps.v
theories/VectorModel.v
theories/VectorSpec.v
theories/VectorProofs.v
theories/VectorProps.v
theories/HashModel.v
theories/HashSpec.v
theories/HashProofs.v
theories/HashProofs2.v
theories/HashProofs3.v
theories/HashProofs4.v
theories/HashProps.v
theories/Str.v
theories/RefnameModel.v
theories/RefnameSpec.v
theories/RefnameProofs.v
theories/RefnameProofs2.v
theories/RefnameProps.v
theories/WildModel.v
theories/WildSpec.v
theories/WildProofs.v
theories/WildSim.v
theories/WildSim2.v
theories/WildProps.v
theories/RefspecModel.v
theories/RefspecSpec.v
theories/RefspecProofs.v
theories/RefspecProps.v
theories/IntModel.v
theories/IntSpec.v
theories/IntProofs.v
theories/IntProps.v
theories/TsortMap.v
theories/StrMap.v
theories/TreeModel.v
theories/TreeSpec.v
theories/TreeProofs.v
theories/TreeLookup.v
theories/TreeBuild.v
theories/TreeProps.v
theories/GraphModel.v
theories/GraphSpec.v
theories/GraphProofs.v
theories/GraphBases.v
theories/GraphTotal.v
theories/GraphProps.v
theories/GraphCount.v
theories/RevModel.v
theories/RevSpec.v
theories/RevProofs.v
theories/RevLimit.v
theories/RevTopo.v
theories/RevDrain.v
theories/RevPrep.v
theories/RevMain.v
theories/RevProps.v
theories/FilebufModel.v
theories/FilebufSpec.v
theories/FilebufProofs.v
theories/FilebufProps.v
theories/RefdbModel.v
theories/RefdbSpec.v
theories/RefdbProofs.v
theories/RefdbTrace.v
theories/RefdbProps.v
theories/CodecModel.v
theories/CodecSpec.v
theories/CodecProofs.v
theories/CodecProps.v
theories/Utf8Model.v
theories/Utf8Spec.v
theories/Utf8Proofs.v
theories/Utf8Props.v
theories/MessageModel.v
theories/MessageSpec.v
theories/MessageProofs.v
theories/MessageProps.v
theories/CrlfModel.v
theories/CrlfSpec.v
theories/CrlfProofs.v
theories/CrlfProps.v
theories/IndexModel.v
theories/IndexSpec.v
theories/IndexProofs.v
theories/IndexMain.v
theories/IndexProps.v
theories/IdxFileModel.v
theories/IdxFileSpec.v
theories/IdxFileProofs.v
theories/IdxFileMain.v
theories/IdxFileProps.v
theories/PathModel.v
theories/PathSpec.v
theories/PathProofs.v
theories/PathMain.v
theories/PathProps.v
theories/ConfigModel.v
theories/ConfigSpec.v
theories/ConfigProofs.v
theories/ConfigMain.v
theories/ConfigWrite.v
theories/ConfigProps.v
theories/PackIdxModel.v
theories/PackIdxSpec.v
theories/PackIdxProofs.v
theories/PackIdxMain.v
theories/PackIdxProps.v
theories/PackHdrModel.v
theories/PackHdrSpec.v
theories/PackHdrProps.v
theories/ShortenModel.v
theories/ShortenSpec.v
theories/ShortenProofs.v
theories/ShortenProps.v
theories/CacheModel.v
theories/CacheProofs.v
theories/CacheMain.v
theories/CacheProps.v
theories/SigModel.v
theories/SigSpec.v
theories/SigProofs.v
theories/SigProps.v
theories/ReflogModel.v
theories/ReflogSpec.v
theories/ReflogProofs.v
theories/ReflogProps.v
theories/MergeModel.v
theories/MergeSpec.v
theories/MergeProofs.v
theories/MergeMain.v
theories/MergeProps.v
theories/DiffModel.v
theories/DiffSpec.v
theories/DiffProofs.v
theories/DiffProps.v
theories/TreeIterModel.v
theories/TreeIterSpec.v
theories/TreeIterProofs.v
theories/TreeIterMain.v
theories/TreeIterProps.v
theories/TreeDiffProps.v
theories/ApplyModel.v
theories/ApplySpec.v
theories/ApplyProofs.v
theories/ApplyProps.v
theories/ShaModel.v
theories/ShaSpec.v
theories/ShaProofs.v
theories/ShaMain.v
theories/ShaProps.v
theories/IgnoreModel.v
theories/IgnoreSpec.v
theories/IgnoreProofs.v
theories/IgnoreMain.v
theories/IgnoreProps.v
theories/CheckoutModel.v
theories/CheckoutSpec.v
theories/CheckoutProofs.v
theories/CheckoutMain.v
theories/CheckoutProps.v
theories/CheckoutClean.v
theories/CommitModel.v
theories/CommitSpec.v
theories/CommitProofs.v
theories/CommitProps.v
theories/CommitSign.v
theories/CommitMore.v
theories/CommitText.v
theories/PackReadModel.v
theories/PackReadSpec.v
theories/PackReadProofs.v
theories/PackReadMain.v
theories/PackReadProps.v
theories/PackReadHeader.v
theories/XdiffModel.v
theories/XdiffProofs.v
theories/XdiffCompact.v
theories/XdiffSpec.v
theories/XdiffMain.v
theories/XdiffEmit.v
theories/XdiffUse.v
theories/XdiffMyers.v
theories/XdiffSplit.v
theories/XdiffProps.v
theories/XmergeModel.v
theories/XmergeSpec.v
theories/XmergeProofs.v
theories/XmergeLoop.v
theories/XmergeMain.v
theories/XmergeFill.v
theories/XmergeUse.v
theories/XmergeClean.v
theories/XmergeProps.v
theories/WtreeModel.v
theories/WtreeSpec.v
theories/WtreeProofs.v
theories/WtreeMain.v
theories/WtreeState.v
theories/WtreeTotal.v
theories/WtreeProps.v
theories/MwinModel.v
theories/MwinSpec.v
theories/MwinProofs.v
theories/MwinMain.v
theories/MwinStep.v
theories/MwinProps.v
theories/PrefsModel.v
theories/PrefsSpec.v
theories/PrefsProofs.v
theories/PrefsFind.v
theories/PrefsMain.v
theories/PrefsPack.v
theories/PrefsProps.v
theories/PktModel.v
theories/PktSpec.v
theories/PktProofs.v
theories/PktMain.v
theories/PktSafe.v
theories/PktKinds.v
theories/PktProps.v
theories/CgModel.v
theories/CgSpec.v
theories/CgGen.v
theories/CgSafe.v
theories/CgFind.v
theories/CgWrite.v
theories/CgMain.v
theories/CgRound.v
theories/CgProps.v
theories/MidxModel.v
theories/MidxSpec.v
theories/MidxFind.v
theories/MidxLay.v
theories/MidxSafe.v
theories/MidxSort.v
theories/MidxTab.v
theories/MidxMain.v
theories/MidxRound.v
theories/MidxBig.v
theories/MidxProps.v
theories/IxextModel.v
theories/IxextSpec.v
theories/IxextProofs.v
theories/IxextRu.v
theories/IxextProps.v
theories/FheadModel.v
theories/FheadSpec.v
theories/FheadProofs.v
theories/FheadProps.v
theories/MmapModel.v
theories/MmapSpec.v
theories/MmapProofs.v
theories/MmapProps.v
theories/MmpModel.v
theories/MmpSpec.v
theories/MmpProofs.v
theories/MmpProps.v
theories/IdentModel.v
theories/IdentSpec.v
theories/IdentProofs.v
theories/IdentProps.v
theories/DirnModel.v
theories/DirnProps.v
