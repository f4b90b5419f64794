Base
VarintModel
VarintSpec
VarintProofs
VarintProps
DeltaTables
DeltaModel
DeltaSpec
DeltaApplyProofs
DeltaCreateProofs
DeltaProps
CStr
OidModel
OidSpec
OidProofs
OidProps
Arr
PQueueModel
PQueueProofs
PQueueProps
TsortModel
TsortSpec
TsortProofs
TsortHeight
TsortTop
TsortProps
VectorModel
VectorSpec
VectorProofs
VectorProps
HashModel
HashSpec
HashProofs
HashProofs2
HashProofs3
HashProofs4
HashProps
Str
RefnameModel
RefnameSpec
RefnameProofs
RefnameProofs2
RefnameProps
WildModel
WildSpec
WildProofs
WildSim
WildSim2
WildProps
RefspecModel
RefspecSpec
RefspecProofs
RefspecProps
IntModel
IntSpec
IntProofs
IntProps
TsortMap
StrMap
TreeModel
TreeSpec
TreeProofs
TreeLookup
TreeBuild
TreeProps
GraphModel
GraphSpec
GraphProofs
GraphBases
GraphTotal
GraphProps
GraphCount
RevModel
RevSpec
RevProofs
RevLimit
RevTopo
RevDrain
RevPrep
RevMain
RevProps
FilebufModel
FilebufSpec
FilebufProofs
FilebufProps
RefdbModel
RefdbSpec
RefdbProofs
RefdbTrace
RefdbProps
CodecModel
CodecSpec
CodecProofs
CodecProps
Utf8Model
Utf8Spec
Utf8Proofs
Utf8Props
MessageModel
MessageSpec
MessageProofs
MessageProps
CrlfModel
CrlfSpec
CrlfProofs
CrlfProps
IndexModel
IndexSpec
IndexProofs
IndexMain
IndexProps
IdxFileModel
IdxFileSpec
IdxFileProofs
IdxFileMain
IdxFileProps
PathModel
PathSpec
PathProofs
PathMain
PathProps
ConfigModel
ConfigSpec
ConfigProofs
ConfigMain
ConfigWrite
ConfigProps
PackIdxModel
PackIdxSpec
PackIdxProofs
PackIdxMain
PackIdxProps
PackHdrModel
PackHdrSpec
PackHdrProps
ShortenModel
ShortenSpec
ShortenProofs
ShortenProps
CacheModel
CacheProofs
CacheMain
CacheProps
SigModel
SigSpec
SigProofs
SigProps
ReflogModel
ReflogSpec
ReflogProofs
ReflogProps
MergeModel
MergeSpec
MergeProofs
MergeMain
MergeProps
DiffModel
DiffSpec
DiffProofs
DiffProps
TreeIterModel
TreeIterSpec
TreeIterProofs
TreeIterMain
TreeIterProps
TreeDiffProps
ApplyModel
ApplySpec
ApplyProofs
ApplyProps
ShaModel
ShaSpec
ShaProofs
ShaMain
ShaProps
IgnoreModel
IgnoreSpec
IgnoreProofs
IgnoreMain
IgnoreProps
CheckoutModel
CheckoutSpec
CheckoutProofs
CheckoutMain
CheckoutProps
CheckoutClean
CommitModel
CommitSpec
CommitProofs
CommitProps
CommitSign
CommitMore
CommitText
PackReadModel
PackReadSpec
PackReadProofs
PackReadMain
PackReadProps
PackReadHeader
XdiffModel
XdiffProofs
XdiffCompact
XdiffSpec
XdiffMain
XdiffEmit
XdiffUse
XdiffMyers
XdiffSplit
XdiffProps
XmergeModel
XmergeSpec
XmergeProofs
XmergeLoop
XmergeMain
XmergeFill
XmergeUse
XmergeClean
XmergeProps
WtreeModel
WtreeSpec
WtreeProofs
WtreeMain
WtreeState
WtreeTotal
WtreeProps
MwinModel
MwinSpec
MwinProofs
MwinMain
MwinStep
MwinProps
PrefsModel
PrefsSpec
PrefsProofs
PrefsFind
PrefsMain
PrefsPack
PrefsProps
PktModel
PktSpec
PktProofs
PktMain
PktSafe
PktKinds
PktProps
CgModel
CgSpec
CgGen
CgSafe
CgFind
CgWrite
CgMain
CgRound
CgProps
MidxModel
MidxSpec
MidxFind
MidxLay
MidxSafe
MidxSort
MidxTab
MidxMain
MidxRound
MidxBig
MidxProps
IxextModel
IxextSpec
IxextProofs
IxextRu
IxextProps
FheadModel
FheadSpec
FheadProofs
FheadProps
MmapModel
MmapSpec
MmapProofs
MmapProps
MmpModel
MmpSpec
MmpProofs
MmpProps
IdentModel
IdentSpec
IdentProofs
IdentProps
DirnModel
DirnProps
