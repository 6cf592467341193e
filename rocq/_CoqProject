-Q theories Verif
theories/ArithDiv.v
theories/ArithGcd.v
theories/ArithModel.v
theories/ArithModel2.v
theories/ArithProof.v
theories/ArithProof2.v
theories/ArithProof3.v
theories/ArithSpec.v
theories/ArithThm.v
theories/ArrSpec.v
theories/Base.v
theories/BinsModel.v
theories/BinsProof.v
theories/BinsThm.v
theories/BitLemmas.v
theories/BitopModel.v
theories/BitopProof.v
theories/BitopProof2.v
theories/BitopProof3.v
theories/BitopProof4.v
theories/BitopSpec.v
theories/BitopThm.v
theories/BitsModel.v
theories/BitsProof.v
theories/BitsProof2.v
theories/BitsSpec.v
theories/BitsThm.v
theories/BuddyModel.v
theories/BuddyProof.v
theories/BuddyProof2.v
theories/BuddySpec.v
theories/BuddyThm.v
theories/CatchModel.v
theories/CatchThm.v
theories/CellsModel.v
theories/CellsProof.v
theories/CellsProof2.v
theories/CellsProof3.v
theories/CellsProof4.v
theories/CellsProof5.v
theories/CellsProof6.v
theories/CellsProof7.v
theories/CellsProof8.v
theories/CellsSpec.v
theories/CellsThm.v
theories/CompareModel.v
theories/CompareProof.v
theories/CompareProof2.v
theories/CompareSpec.v
theories/CompareThm.v
theories/CountModel.v
theories/CountProof.v
theories/CountSpec.v
theories/CountThm.v
theories/DataSpec.v
theories/FileModel.v
theories/FileProof.v
theories/FileProof2.v
theories/FileSpec.v
theories/FileThm.v
theories/FillModel.v
theories/FillProof.v
theories/FillProof2.v
theories/FillSpec.v
theories/FillThm.v
theories/FnsModel.v
theories/FnsProof.v
theories/FnsProof2.v
theories/FnsProof3.v
theories/FnsProof4.v
theories/FnsProof5.v
theories/FnsProof6.v
theories/FnsProof7.v
theories/FnsProof8.v
theories/FnsSpec.v
theories/FnsThm.v
theories/FoldModel.v
theories/FoldProof.v
theories/FoldProof2.v
theories/FoldProof3.v
theories/FoldSpec.v
theories/FoldThm.v
theories/GcModel.v
theories/GcProof.v
theories/GcSpec.v
theories/GcThm.v
theories/GroupModel.v
theories/GroupProof.v
theories/GroupProof2.v
theories/GroupProof3.v
theories/GroupSpec.v
theories/GroupThm.v
theories/HashMapModel.v
theories/HashMapProof.v
theories/HashMapProof2.v
theories/HashMapProof3.v
theories/HashMapSpec.v
theories/HashMapThm.v
theories/HashModel.v
theories/HashProof.v
theories/HashSpec.v
theories/HashThm.v
theories/HtabMap.v
theories/HtabModel.v
theories/HtabProof.v
theories/HtabThm.v
theories/JoinModel.v
theories/JoinProof.v
theories/JoinProof2.v
theories/JoinProof3.v
theories/JoinProof4.v
theories/JoinProof5.v
theories/JoinSpec.v
theories/JoinThm.v
theories/ListLib.v
theories/MapModel.v
theories/MapProof.v
theories/MapProof2.v
theories/MapProof3.v
theories/MapProof4.v
theories/MapProof5.v
theories/MapProof6.v
theories/MapSpec.v
theories/MapThm.v
theories/MatchModel.v
theories/MatchProof.v
theories/MatchProof2.v
theories/MatchSpec.v
theories/MatchThm.v
theories/MonModel.v
theories/MonProof.v
theories/MonProof2.v
theories/MonProof3.v
theories/MonSpec.v
theories/MonThm.v
theories/MoveModel.v
theories/MoveProof.v
theories/MoveProof2.v
theories/MoveProof3.v
theories/MoveProof4.v
theories/MoveProof5.v
theories/MoveProof6.v
theories/MoveProof7.v
theories/MoveProof8.v
theories/MoveProof9.v
theories/MoveSpec.v
theories/MoveThm.v
theories/MutModel.v
theories/MutProof.v
theories/MutProof2.v
theories/MutProof3.v
theories/MutProof4.v
theories/MutProof5.v
theories/MutSpec.v
theories/MutThm.v
theories/NsModel.v
theories/NsThm.v
theories/NumProof.v
theories/NumSpec.v
theories/PervModel.v
theories/PervProof.v
theories/PervProof2.v
theories/PervProof3.v
theories/PervProof4.v
theories/PervProof5.v
theories/PervProof6.v
theories/PervSpec.v
theories/PervThm.v
theories/RadixProof.v
theories/RandModel.v
theories/RandProof.v
theories/RandProof2.v
theories/RandProof3.v
theories/RandProof4.v
theories/RandProof5.v
theories/RandSpec.v
theories/RandThm.v
theories/ReshapeModel.v
theories/ReshapeProof.v
theories/ReshapeProof2.v
theories/ReshapeProof3.v
theories/ReshapeSpec.v
theories/ReshapeThm.v
theories/ReuseModel.v
theories/ReuseProof.v
theories/ReuseProof2.v
theories/ReuseProof3.v
theories/ReuseSpec.v
theories/ReuseThm.v
theories/RevBitModel.v
theories/RevBitProof.v
theories/RyuCert.v
theories/RyuDigits.v
theories/RyuExact.v
theories/RyuModel.v
theories/RyuParse.v
theories/RyuPrint.v
theories/RyuRound.v
theories/RyuSpec.v
theories/RyuTable.v
theories/RyuText.v
theories/RyuThm.v
theories/RyuThm2.v
theories/ScanModel.v
theories/ScanProof.v
theories/ScanProof2.v
theories/ScanProof3.v
theories/ScanProof4.v
theories/ScanProof5.v
theories/ScanThm.v
theories/ScopeModel.v
theories/ScopeThm.v
theories/SearchChain.v
theories/SearchFlat.v
theories/SearchMany.v
theories/SearchMany2.v
theories/SearchModel.v
theories/SearchProof.v
theories/SearchSpec.v
theories/SearchTab.v
theories/SearchThm.v
theories/SelectModel.v
theories/SelectProof.v
theories/SelectProof2.v
theories/SelectSpec.v
theories/SelectThm.v
theories/SelfHash.v
theories/SelfMain.v
theories/SelfModel.v
theories/SelfPaths.v
theories/SelfProof.v
theories/SelfRadix.v
theories/SelfSpec.v
theories/SelfThm.v
theories/SlashBits.v
theories/SlashBsp.v
theories/SlashComp.v
theories/SlashComp2.v
theories/SlashComp3.v
theories/SlashInd.v
theories/SlashModel.v
theories/SlashModel2.v
theories/SlashModel3.v
theories/SlashModel4.v
theories/SlashModel5.v
theories/SlashProof.v
theories/SlashRep.v
theories/SlashSpec.v
theories/SlashThm.v
theories/SlashThm2.v
theories/SlashThm3.v
theories/SlashWhere.v
theories/SlashWhere2.v
theories/SortModel.v
theories/SortProof.v
theories/SortProof2.v
theories/SortProof3.v
theories/SortProof4.v
theories/SortSpec.v
theories/SortThm.v
theories/SortTopModel.v
theories/SqueezeModel.v
theories/SqueezeProof.v
theories/SqueezeProof2.v
theories/SqueezeSpec.v
theories/SqueezeThm.v
theories/TagModel.v
theories/TagProof.v
theories/TagSpec.v
theories/TagThm.v
theories/TimsortModel.v
theories/TimsortProof.v
theories/TimsortProof2.v
theories/TimsortSpec.v
theories/TimsortThm.v
theories/TrainModel.v
theories/TrainProof.v
theories/TrainSpec.v
theories/TrainThm.v
theories/TransBitModel.v
theories/TransBitProof.v
theories/TransModel.v
theories/TransProof.v
theories/TransProof10.v
theories/TransProof2.v
theories/TransProof3.v
theories/TransProof4.v
theories/TransProof5.v
theories/TransProof6.v
theories/TransProof7.v
theories/TransProof8.v
theories/TransProof9.v
theories/TransSpec.v
theories/TransThm.v
theories/UnderModel.v
theories/UnderProof.v
theories/UnderProof2.v
theories/UnderProof3.v
theories/UnderProof4.v
theories/UnderSpec.v
theories/UnderThm.v
theories/UtfModel.v
theories/UtfProof.v
theories/UtfSpec.v
theories/UtfThm.v
theories/VarModel.v
theories/VarSpec.v
theories/VarThm.v
theories/VmModel.v
theories/VmProof.v
theories/VmSpec.v
theories/VmThm.v
theories/WidenModel.v
theories/WidenProof.v
