-Q theories Verif
theories/Base.v
theories/ListModel.v
theories/ListRep.v
theories/ListCore.v
theories/ListCore2.v
theories/ListSpec.v
theories/ListOps.v
theories/ListPure.v
theories/ListOps2.v
theories/ListRun.v
theories/ListOps3.v
theories/ListSim.v
theories/ListThm.v
theories/ListThm2.v
theories/ListProps.v
theories/NumOrd.v
theories/QueueModel.v
theories/QueueSpec.v
theories/QueueThm.v
theories/PQThm.v
theories/QueueProps.v
theories/HeapModel.v
theories/HeapSpec.v
theories/HeapThm.v
theories/HeapProps.v
theories/HeapAliasModel.v
theories/HeapAliasSpec.v
theories/HeapAliasThm.v
theories/HeapAliasProps.v
theories/TreeModel.v
theories/TreeSpec.v
theories/TreeThm.v
theories/BinThm.v
theories/TreeProps.v
theories/BstModel.v
theories/BstSep.v
theories/BstRules.v
theories/BstZip.v
theories/BstDel.v
theories/BalModel.v
theories/BstSpec.v
theories/BstPure.v
theories/BstThm.v
theories/BstProps.v
theories/AvlThm.v
theories/AvlProps.v
theories/TreapThm.v
theories/TreapProps.v
theories/SplayThm.v
theories/SplayProps.v
theories/RbThm.v
theories/RbProps.v
theories/RbSpec.v
theories/RbDel.v
theories/RbDel2.v
theories/RbDel3.v
theories/RbDel4.v
theories/RbDel5.v
theories/RbProps2.v
theories/RbInsSpec.v
theories/RbIns.v
theories/RbProps3.v
theories/SkipModel.v
theories/SkipSpec.v
theories/SkipThm.v
theories/SkipThm2.v
theories/SkipThm3.v
theories/SkipProps.v
theories/TrieModel.v
theories/TrieRep.v
theories/TrieSpec.v
theories/TrieThm.v
theories/TrieThm2.v
theories/TrieProps.v
theories/TrieThm3.v
theories/SuffixModel.v
theories/TrieThm4.v
theories/SuffixSpec.v
theories/SuffixThm.v
theories/SuffixThm2.v
theories/SuffixThm3.v
theories/SuffixThm4.v
theories/SuffixProps.v
theories/SuffixDeepSpec.v
theories/SuffixThm5.v
theories/SuffixProps2.v
theories/SuffixFindSpec.v
theories/SuffixThm6.v
theories/SuffixProps3.v
theories/BuildModel.v
theories/BuildProps.v
theories/LevelModel.v
theories/TrieSpec2.v
theories/TrieThm5.v
theories/TrieThm6.v
theories/TrieProps2.v
theories/TrieProps3.v
theories/RadixSpec.v
theories/RadixThm.v
theories/RadixProps.v
theories/AvlProps2.v
theories/BstProps2.v
theories/BstSpec2.v
theories/AvlThm2.v
theories/AvlProps3.v
theories/AvlDelSpec.v
theories/AvlThm3.v
theories/AvlProps4.v
theories/PrintModel.v
theories/PrintSpec.v
theories/PrintThm.v
theories/PrintProps.v
theories/BstProps3.v
theories/PathModel.v
theories/PathSpec.v
theories/PathThm.v
theories/PathProps.v
theories/DrawModel.v
theories/DrawSpec.v
theories/DrawThm.v
theories/DrawProps.v
theories/LeftSpec.v
theories/LeftThm.v
theories/LeftProps.v
theories/BinDrawModel.v
theories/BinDrawSpec.v
theories/BinDrawThm.v
theories/BinDrawProps.v
theories/TriePrintModel.v
theories/TriePrintSpec.v
theories/TriePrintThm.v
theories/TriePrintThm2.v
theories/TriePrintProps.v
theories/SkipDrawModel.v
theories/SkipDrawSpec.v
theories/SkipDrawThm.v
theories/SkipDrawProps.v
theories/PQSpec.v
theories/PQExact.v
theories/PQProps.v
theories/ListExactSpec.v
theories/ListExact.v
theories/ListProps2.v
theories/IterModel.v
theories/IterSpec.v
theories/IterThm.v
theories/IterThm2.v
theories/IterThm3.v
theories/IterProps.v
theories/TreeIterModel.v
theories/TreeIterSpec.v
theories/TreeIterThm.v
theories/TreeIterThm2.v
theories/TreeIterThm3.v
theories/TreeIterThm4.v
theories/TreeIterProps.v
theories/HeapIterModel.v
theories/HeapIterSpec.v
theories/HeapIterThm.v
theories/HeapIterProps.v
theories/TrieIterModel.v
theories/TrieIterSpec.v
theories/TrieIterThm.v
theories/TrieIterThm2.v
theories/TrieIterThm3.v
theories/TrieIterThm4.v
theories/TrieIterProps.v
theories/HeapProps2.v
theories/BstProps4.v
theories/ListOrderProps.v
theories/SkipIterModel.v
theories/SkipIterSpec.v
theories/SkipIterThm.v
theories/SkipIterThm2.v
theories/SkipIterProps.v
theories/SplayCostSpec.v
theories/SplayCost.v
theories/SplayCostThm.v
theories/SplayCostProps.v
theories/DepthModel.v
theories/DepthSpec.v
theories/DepthThm.v
theories/DepthThm2.v
theories/DepthThm3.v
theories/DepthThm4.v
theories/DepthThm5.v
theories/DepthThm6.v
theories/DepthProps.v
theories/TreapAvgSpec.v
theories/TreapAvgThm.v
theories/TreapAvgThm2.v
theories/TreapAvgThm3.v
theories/TreapAvgThm4.v
theories/TreapAvgProps.v
theories/SkipCostModel.v
theories/SkipCostSpec.v
theories/SkipCostThm.v
theories/SkipCostThm2.v
theories/SkipCostThm3.v
theories/SkipCostThm4.v
theories/SkipCostProps.v
theories/HeapCostModel.v
theories/HeapCostSpec.v
theories/HeapCostThm.v
theories/HeapCostProps.v
theories/WalkModel.v
theories/WalkSpec.v
theories/WalkThm.v
theories/WalkThm2.v
theories/WalkThm3.v
theories/WalkThm4.v
theories/WalkProps.v
theories/BstAvgSpec.v
theories/BstAvgThm.v
theories/BstAvgThm2.v
theories/BstAvgProps.v
theories/RbDeepThm.v
theories/RbDeepProps.v
theories/BuildCostSpec.v
theories/BuildCostThm.v
theories/BuildCostProps.v
theories/TreapBuildSpec.v
theories/TreapBuildThm.v
theories/TreapBuildProps.v
theories/SplayBuildThm.v
theories/SplayBuildProps.v
theories/SplayProps3.v
theories/TreapSpec.v
theories/TreapRemThm.v
theories/TreapProps2.v
theories/RadixProps2.v
theories/SkipProps2.v
theories/RbProps4.v
theories/SkipProps3.v
theories/TrieWorkModel.v
theories/TrieWorkThm.v
theories/TrieWorkProps.v
theories/ListMixThm.v
theories/ListMixProps.v
theories/TrieProps4.v
theories/LookModel.v
theories/LookSpec.v
theories/LookThm.v
theories/LookProps.v
theories/LookRbProps.v
theories/SuffixWorkModel.v
theories/SuffixWorkThm.v
theories/SuffixWorkProps.v
theories/ScanModel.v
theories/ScanSpec.v
theories/ScanThm.v
theories/ScanProps.v
theories/DownModel.v
theories/DownSpec.v
theories/DownThm.v
theories/DownThm2.v
theories/DownThm3.v
theories/DownProps.v
theories/ListCmpModel.v
theories/ListCmpSpec.v
theories/ListCmpProps.v
theories/DownModel2.v
theories/DownSpec2.v
theories/DownThm4.v
theories/DownThm5.v
theories/DownProps2.v
theories/DownModel3.v
theories/DownThm6.v
theories/DownThm7.v
theories/DownProps3.v
theories/DownModel4.v
theories/DownSpec3.v
theories/DownThm8.v
theories/DownProps4.v
