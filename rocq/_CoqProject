-Q theories Verif
theories/Common.v
theories/HashTable_Spec.v
theories/HashTable_Model.v
theories/CommonFacts.v
theories/HashTable_Proofs.v
theories/HashTable_Refine.v
theories/HashMap_Spec.v
theories/HashMap_Model.v
theories/HashMap_Proofs.v
theories/HashTable_Facts.v
theories/HashTable_Props.v
theories/HashMap_Props.v
theories/RotatingHashMap_Spec.v
theories/RotatingHashMap_Model.v
theories/RotatingHashMap_Proofs.v
theories/RotatingHashMap_Props.v
theories/Deque_Spec.v
theories/Deque_Model.v
theories/Deque_Proofs.v
theories/Deque_Facts.v
theories/Deque_Props.v
theories/PriorityQueue_Spec.v
theories/PriorityQueue_Model.v
theories/PriorityQueue_Proofs.v
theories/PriorityQueue_Facts.v
theories/PriorityQueue_Props.v
theories/ListFacts.v
theories/BMH_Model.v
theories/BMH_Props.v
theories/Base64_Spec.v
theories/Base64_Model.v
theories/Base64_Proofs.v
theories/Base64_Props.v
theories/StringUtil_Spec.v
theories/StringUtil_Model.v
theories/StringUtil_Proofs.v
theories/StringUtil_Props.v
theories/ByteBuffer_Spec.v
theories/ByteBuffer_Model.v
theories/ByteBuffer_Proofs.v
theories/ByteBuffer_Facts.v
theories/ByteBuffer_Props.v
theories/HashFns_Spec.v
theories/HashFns_Model.v
theories/HashFns_Proofs.v
theories/HashFns_Props.v
theories/Double64.v
theories/InterpSearch_Spec.v
theories/InterpSearch_Model.v
theories/InterpSearch_Proofs.v
theories/InterpSearch_Props.v
theories/Tuples_Spec.v
theories/Tuples_Model.v
theories/Tuples_Proofs.v
theories/Tuples_Props.v
theories/StringId_Spec.v
theories/StringId_Model.v
theories/StringId_Proofs.v
theories/StringId_Props.v
theories/ConstantString_Spec.v
theories/ConstantString_Model.v
theories/ConstantString_Proofs.v
theories/ConstantString_Props.v
theories/Arith.v
theories/Stats_Spec.v
theories/Stats_Model.v
theories/Stats_Proofs.v
theories/Stats_DProofs.v
theories/Stats_Props.v
theories/Stats_DSpec.v
theories/Histogram_Spec.v
theories/Histogram_Model.v
theories/Histogram_Arr.v
theories/Histogram_Proofs.v
theories/HistGroup_Proofs.v
theories/Histogram_Props.v
theories/Atomic_Spec.v
theories/Atomic_Model.v
theories/Atomic_Proofs.v
theories/Atomic_Props.v
theories/SpinLock_Model.v
theories/SpinLock_Spec.v
theories/SpinLock_Proofs.v
theories/SpinLock_Props.v
theories/LockOrder_Model.v
theories/LockOrder_Spec.v
theories/LockOrder_Proofs.v
theories/LockOrder_Props.v
theories/Quantile_Model.v
theories/Quantile_Facts.v
theories/Quantile_Spec.v
theories/Quantile_Merge.v
theories/Quantile_Bin.v
theories/Quantile_Collapse.v
theories/Quantile_Proofs.v
theories/Quantile_Query.v
theories/Quantile_Error.v
theories/Quantile_History.v
theories/Quantile_Eps.v
theories/Quantile_Props.v
theories/Sequence_Model.v
theories/Sequence_Spec.v
theories/Sequence_Proofs.v
theories/Sequence_Props.v
theories/EMA_Model.v
theories/EMA_Spec.v
theories/EMA_Proofs.v
theories/EMA_Props.v
theories/Series_Model.v
theories/Series_Spec.v
theories/Series_Proofs.v
theories/Series_Props.v
theories/Group_Model.v
theories/Group_Spec.v
theories/Group_Proofs.v
theories/Group_Props.v
theories/Double_Model.v
theories/Double_Exact.v
theories/Double_Proofs.v
theories/Double_Props.v
theories/Linear_Model.v
theories/Linear_Spec.v
theories/Linear_Proofs.v
theories/Matrix_Proofs.v
theories/Linear_Props.v
theories/WordWrap_Model.v
theories/WordWrap_Spec.v
theories/WordWrap_Proofs.v
theories/WordWrap_Props.v
theories/Maker_Model.v
theories/Maker_Spec.v
theories/Maker_Proofs.v
theories/Maker_Props.v
theories/Unique_Spec.v
theories/Unique_Model.v
theories/Unique_Proofs.v
theories/Unique_Props.v
theories/Cube_Spec.v
theories/Cube_Model.v
theories/Cube_Entries.v
theories/Cube_Proofs.v
theories/Cube_Props.v
theories/Clock_Model.v
theories/Clock_Proofs.v
theories/Clock_Props.v
theories/Random_Spec.v
theories/Random_Model.v
theories/Random_Proofs.v
theories/Random_Props.v
theories/RandomDouble_Model.v
theories/RandomDouble_Proofs.v
theories/RandomDouble_Props.v
theories/MT_Spec.v
theories/MT_Model.v
theories/MT_Proofs.v
theories/MT_Array.v
theories/MT_Props.v
theories/Log_Spec.v
theories/Log_Model.v
theories/Log_Proofs.v
theories/Log_Props.v
theories/Marsaglia_Model.v
theories/Marsaglia_Spec.v
theories/Marsaglia_Proofs.v
theories/Marsaglia_Props.v
theories/Timed_Model.v
theories/Timed_Spec.v
theories/Timed_Proofs.v
theories/Timed_Props.v
theories/StrInt_Model.v
theories/StrInt_Spec.v
theories/StrInt_Proofs.v
theories/StrInt_Props.v
theories/HistQuery_Model.v
theories/HistQuery_Proofs.v
theories/HistQuery_Props.v
theories/HistAccum_Model.v
theories/HistAccum_Spec.v
theories/HistAccum_Proofs.v
theories/HistAccum_Props.v
theories/RealArith.v
theories/LogHist_Spec.v
theories/LogHist_Model.v
theories/LogHist_Proofs.v
theories/LogHist_Query.v
theories/LogHist_Props.v
theories/MathFns_Model.v
theories/MathFns_Spec.v
theories/MathFns_RealSpec.v
theories/MathFns_Proofs.v
theories/MathFns_Conv.v
theories/MathFns_Erf.v
theories/MathFns_Newton.v
theories/MathFns_Gauss.v
theories/MathFns_Guess.v
theories/MathFns_Props.v
theories/AssertBoost_Model.v
theories/AssertBoost_Spec.v
theories/AssertBoost_Proofs.v
theories/AssertBoost_Props.v
theories/ClockCC_Model.v
theories/ClockCC_Spec.v
theories/ClockCC_Proofs.v
theories/ClockCC_Runs.v
theories/ClockCC_Default.v
theories/ClockCC_Props.v
theories/ThreadLife_Model.v
theories/ThreadLife_Spec.v
theories/ThreadLife_Proofs.v
theories/ThreadLife_Props.v
theories/LogNormal_Model.v
theories/LogNormal_Spec.v
theories/LogNormal_Gauss.v
theories/LogNormal_Proofs.v
theories/LogNormal_Props.v
theories/Owned_Spec.v
theories/Owned_Model.v
theories/Owned_Proofs.v
theories/Owned_Props.v
theories/ProgOpt_Spec.v
theories/ProgOpt_Model.v
theories/ProgOpt_Proofs.v
theories/ProgOpt_Props.v
theories/HashScan_Model.v
theories/HashScan_Proofs.v
theories/HashScan_Props.v
theories/HashPtr_Model.v
theories/HashPtr_Spec.v
theories/HashPtr_Proofs.v
theories/HashPtr_Props.v
theories/TestMacro_Model.v
theories/TestMacro_Spec.v
theories/TestMacro_Proofs.v
theories/TestMacro_Props.v
theories/DepTool_Model.v
theories/DepTool_Spec.v
theories/DepTool_Proofs.v
theories/DepTool_Props.v
theories/ClockTS_Model.v
theories/ClockTS_Spec.v
theories/ClockTS_Proofs.v
theories/ClockTS_Props.v
theories/StatsDev_Model.v
theories/StatsDev_Spec.v
theories/StatsDev_Proofs.v
theories/StatsDev_Props.v
theories/Base64Race_Model.v
theories/Base64Race_Proofs.v
theories/Base64Race_Props.v
theories/PQRef_Model.v
theories/PQRef_Proofs.v
theories/PQRef_Props.v
theories/Fresh_Model.v
theories/Fresh_Spec.v
theories/Fresh_Proofs.v
theories/Fresh_Props.v
theories/QD_Proofs.v
theories/QD_Props.v
theories/PrintQ_Model.v
theories/PrintQ_Spec.v
theories/PrintQ_Proofs.v
theories/PrintQ_Props.v
theories/Posix_Model.v
theories/Posix_Props.v
theories/Corr_Model.v
theories/Corr_Props.v
theories/QSelf_Model.v
theories/QSelf_Props.v
theories/LogXML_Model.v
theories/LogXML_Spec.v
theories/LogXML_Props.v
theories/MakerDef_Model.v
theories/MakerDef_Spec.v
theories/MakerDef_Props.v
theories/Util_Model.v
theories/Util_Spec.v
theories/Util_Props.v
theories/MatMem_Model.v
theories/MatMem_Spec.v
theories/MatMem_Props.v
theories/StrCase_Model.v
theories/StrCase_Props.v
theories/HistMem_Model.v
theories/HistMem_Spec.v
theories/HistMem_Props.v
theories/Cast_Model.v
theories/Cast_Spec.v
theories/Cast_Props.v
theories/Scoped_Model.v
theories/Scoped_Spec.v
theories/Scoped_Props.v
theories/Stdio_Model.v
theories/Stdio_Spec.v
theories/Stdio_Props.v
theories/HashRaw_Model.v
theories/HashRaw_Props.v
theories/CubeFns_Model.v
theories/CubeFns_Props.v
theories/Calib_Model.v
theories/Calib_Spec.v
theories/Calib_Props.v
theories/Latency_Model.v
theories/Latency_Spec.v
theories/Latency_Props.v
theories/FreqScale_Spec.v
theories/FreqScale_Model.v
theories/FreqScale_Props.v
theories/BufAs_Model.v
theories/BufAs_Props.v
theories/NormFns_Spec.v
theories/NormFns_Model.v
theories/NormFns_Pi.v
theories/NormFns_Props.v
theories/HostText_Spec.v
theories/HostText_Model.v
theories/HostText_Props.v
theories/NormD_Spec.v
theories/NormD_Props.v
theories/NormPdf_Spec.v
theories/NormPdf_Props.v
