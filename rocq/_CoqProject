-Q theories Verif
theories/Base.v
theories/Sem.v
theories/Ex.v
theories/M_Table.v
theories/Tree.v
theories/M_Hash.v
theories/S_Hash.v
theories/P_Hash.v
theories/Props_Hash.v
theories/M_Ops.v
theories/P_Ops.v
theories/P_OpsC.v
theories/Props_Ops.v
theories/M_Sweeper.v
theories/M_Engine.v
theories/P_Sweep.v
theories/P_Pass.v
theories/P_Pass2.v
theories/P_Core.v
theories/P_Upd.v
theories/P_Level.v
theories/P_Engine.v
theories/M_Builder.v
theories/P_Builder.v
theories/Props_Builder.v
theories/M_Subset.v
theories/P_Subset.v
theories/Props_Subset.v
theories/M_Index.v
theories/P_Index.v
theories/M_Reducer.v
theories/P_Red.v
theories/P_RLevel.v
theories/P_RHash.v
theories/P_RMP.v
theories/P_RGlobal.v
theories/P_AlgR.v
theories/P_AlgR2.v
theories/P_Prep.v
theories/P_AlgR3.v
theories/S_Dd.v
theories/P_Run.v
theories/M_Equal.v
theories/P_Equal.v
theories/P_RedProps.v
theories/M_Zero.v
theories/P_Zero.v
theories/P_Wfb.v
theories/P_Attr.v
theories/Props_Reduce.v
theories/M_Big.v
theories/S_Big.v
theories/P_Big.v
theories/Props_Big.v
theories/M_Eval.v
theories/S_Eval.v
theories/P_Eval.v
theories/P_Count.v
theories/P_Card.v
theories/Props_Eval.v
theories/M_Conv.v
theories/P_Conv.v
theories/Props_Conv.v
theories/M_Iter.v
theories/P_Iter.v
theories/Props_Iter.v
theories/M_Size.v
theories/S_Spec.v
theories/P_Size.v
theories/Props_Size.v
theories/M_Linear.v
theories/P_Linear.v
theories/P_Linear2.v
theories/P_Linear3.v
theories/Props_Linear.v
theories/M_Graph.v
theories/S_Graph.v
theories/P_Graph.v
theories/P_Graph2.v
theories/P_Graph3.v
theories/P_Graph4.v
theories/P_Graph5.v
theories/Props_Graph.v
theories/M_Degree.v
theories/S_Degree.v
theories/P_Front.v
theories/P_Degree.v
theories/Props_Degree.v
theories/M_NodeId.v
theories/Props_NodeId.v
theories/M_Dfs.v
theories/S_Path.v
theories/Props_Dfs.v
theories/M_PathCount.v
theories/P_PathCount.v
theories/P_PathCount2.v
theories/P_PathCount3.v
theories/Props_PathCount.v
theories/M_Handler.v
theories/S_Handler.v
theories/P_Handler.v
theories/P_Release.v
theories/Props_Handler.v
theories/M_Mem.v
theories/P_Mem.v
theories/M_Pool.v
theories/S_Pool.v
theories/P_Pool.v
theories/Props_Pool.v
theories/M_List.v
theories/S_List.v
theories/P_List.v
theories/M_PoolList.v
theories/S_PoolList.v
theories/P_PoolList.v
theories/Props_List.v
theories/M_Vector.v
theories/S_Vector.v
theories/P_Vector.v
theories/Props_Vector.v
theories/M_Set.v
theories/S_Set.v
theories/P_Set.v
theories/P_SmallSet.v
theories/Props_Set.v
theories/M_Text.v
theories/S_Text.v
theories/P_Text.v
theories/M_Dump.v
theories/S_Sapporo.v
theories/P_Dump.v
theories/Props_Dump.v
theories/M_Simpath.v
theories/S_Simpath.v
theories/P_Simpath1.v
theories/P_Simpath2.v
theories/P_Simpath3.v
theories/P_Simpath4.v
theories/P_Simpath5.v
theories/P_Simpath6.v
theories/Props_Simpath.v
theories/M_Fbs.v
theories/S_Fbs.v
theories/P_Fbs1.v
theories/P_Fbs2.v
theories/P_Fbs3.v
theories/P_Fbs4.v
theories/P_Fbs5.v
theories/P_Fbs6.v
theories/Props_Fbs.v
theories/M_Storage.v
theories/S_Storage.v
theories/P_Storage.v
theories/P_Storage2.v
theories/Props_Storage.v
theories/M_Graphillion.v
theories/S_Graphillion.v
theories/P_Graphillion.v
theories/P_Graphillion2.v
theories/Props_Graphillion.v
theories/M_Merge.v
theories/S_Merge.v
theories/P_Merge0.v
theories/P_Merge1.v
theories/P_Merge2.v
theories/P_Merge3.v
theories/P_Merge4.v
theories/P_Merge5.v
theories/P_Merge6.v
theories/Props_Merge.v
theories/M_MergeMp.v
theories/M_GraphIO.v
theories/S_GraphIO.v
theories/P_GraphIO.v
theories/Props_GraphIO.v
theories/M_Life.v
theories/S_Life.v
theories/P_Life.v
theories/P_Life2.v
theories/P_Merge7.v
theories/Props_Life.v
theories/M_Queen.v
theories/S_Queen.v
theories/P_Queen.v
theories/P_Queen2.v
theories/P_Queen3.v
theories/P_Code.v
theories/S_Api.v
theories/P_Api.v
theories/Props_Api.v
theories/Props_Queen.v
theories/M_PathMap.v
theories/S_PathMap.v
theories/P_PathMap.v
theories/P_PathMap2.v
theories/Props_PathMap.v
theories/M_Ddpaths.v
theories/S_Ddpaths.v
theories/P_Uncolored.v
theories/P_Ddpaths.v
theories/Props_Ddpaths.v
theories/M_Bridge.v
theories/S_Bridge.v
theories/P_Bridge.v
theories/P_Bridge2.v
theories/P_Bridge3.v
theories/P_Bridge4.v
theories/Props_Bridge.v
theories/M_Color.v
theories/S_Color.v
theories/P_Color.v
theories/P_Color2.v
theories/P_Color3.v
theories/M_ColorProg.v
theories/Props_Color.v
theories/M_Dot.v
theories/S_Dot.v
theories/P_Dot.v
theories/P_Dot2.v
theories/Props_Dot.v
theories/M_Fixed.v
theories/S_Fixed.v
theories/Props_Fixed.v
theories/M_Numlin.v
theories/S_Numlin.v
theories/P_Numlin1.v
theories/P_Numlin2.v
theories/P_Numlin3.v
theories/P_Numlin4.v
theories/P_Numlin5.v
theories/P_Numlin6.v
theories/M_NumlinProg.v
theories/P_Numlin7.v
theories/Props_Numlin.v
theories/M_NumlinCon.v
theories/Props_NumlinCon.v
theories/M_Cnf.v
theories/S_Cnf.v
theories/P_Cnf1.v
theories/P_Cnf2.v
theories/P_Cnf3.v
theories/P_Cnf4.v
theories/Props_Cnf.v
theories/M_CnfBdd.v
theories/P_CnfBdd.v
theories/Props_CnfBdd.v
theories/M_CnfMap.v
theories/P_CnfMap.v
theories/Props_CnfMap.v
theories/S_NumlinCon.v
theories/P_NumlinCon.v
theories/Props_NumlinCon2.v
