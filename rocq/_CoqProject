-Q theories Verif
theories/Base.v
theories/M_PackedArray.v
theories/M_Queue.v
theories/M_Cells.v
theories/M_HashTable.v
theories/M_Sais.v
theories/M_Split.v
theories/M_Induce.v
theories/M_Flbwt.v
theories/M_File.v
theories/Spec.v
theories/TermSpec.v
theories/BlockSpec.v
theories/LoadSpec.v
theories/SortSpec.v
theories/Histories.v
theories/P_Sorter.v
theories/P_MergeSort.v
theories/P_Refuted.v
theories/P_PackedArray.v
theories/P_PackedWide.v
theories/P_Queue.v
theories/P_Cells.v
theories/P_Split.v
theories/Count.v
theories/Text.v
theories/Induced.v
theories/Keys.v
theories/P_SaisMem.v
theories/P_SaisInduce.v
theories/P_SaisStages.v
theories/P_Sais.v
theories/P_Bridge.v
theories/P_Histories.v
theories/P_Bytes.v
theories/P_HashTable.v
theories/P_HashTable2.v
theories/Sums.v
theories/P_Insert.v
theories/P_Extract.v
theories/P_Sort.v
theories/P_Names.v
theories/P_Create.v
theories/P_InduceBase.v
theories/P_Induce1.v
theories/P_Induce2.v
theories/P_Spec.v
theories/P_Lists.v
theories/P_Blocks.v
theories/P_SplitBranch.v
theories/P_Flbwt.v
theories/P_Term.v
theories/P_File.v
theories/P_HTHistory.v
theories/P_Api.v
theories/P_Props.v
theories/P_Props2.v
theories/P_Props3.v
theories/M_Heap.v
theories/Pool.v
theories/P_Size.v
theories/P_Heap.v
theories/M_HeapProg.v
theories/P_Bank.v
theories/P_Pool.v
theories/P_HeapSim.v
theories/P_HeapInduce.v
theories/P_SaisLen.v
theories/P_Buffer.v
theories/P_HeapProg.v
theories/P_Oom.v
theories/P_OomProg.v
theories/Client.v
theories/P_Client.v
theories/P_ClientOom.v
theories/Threads.v
theories/P_Reify.v
theories/P_Thread.v
theories/P_ThreadClient.v
theories/M_Fs.v
theories/FsSpec.v
theories/P_Fs.v
theories/P_Uninit.v
theories/P_Long.v
theories/M_SaisCost.v
theories/P_SaisCost.v
theories/P_SaisLinear.v
theories/P_Steps.v
theories/M_Cost.v
theories/P_Cost.v
theories/P_CostInduce.v
theories/P_CostBranch.v
theories/P_CostHash.v
theories/P_CostSort.v
theories/P_CostFlbwt.v
theories/P_CostBucket.v
theories/P_DictUninit.v
theories/P_CostNN.v
theories/P_CostLower.v
theories/P_CostText.v
theories/P_CostWorst.v
theories/P_CostFile.v
theories/M_Moves.v
theories/P_Moves.v
theories/P_MovesLow.v
theories/Properties.v
