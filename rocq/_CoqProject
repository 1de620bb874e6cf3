-Q theories Verif
theories/Common.v
theories/LibList.v
theories/M_Mpi.v
theories/S_Mpi.v
theories/L_Mpi.v
theories/P_Mpi.v
theories/M_Chunks.v
theories/S_Chunks.v
theories/L_Chunks.v
theories/P_Chunks.v
theories/M_Steps.v
theories/L_Steps.v
theories/M_Hwp.v
theories/S_Hwp.v
theories/L_Hwp.v
theories/P_Steps.v
theories/M_Config.v
theories/L_Config.v
theories/P_Config.v
theories/M_Sched.v
theories/S_Sched.v
theories/L_Sched.v
theories/P_Sched.v
theories/Cplx.v
theories/M_Alm.v
theories/S_Alm.v
theories/L_Alm.v
theories/M_Blm.v
theories/L_Blm.v
theories/P_Alm.v
theories/M_Beam.v
theories/M_Focal.v
theories/S_Focal.v
theories/L_Beam.v
theories/L_Ghost.v
theories/L_Focal.v
theories/L_FocalInv.v
theories/L_FocalOps.v
theories/L_FocalLoad.v
theories/L_FocalRef.v
theories/L_FocalThm.v
theories/P_Focal.v
theories/M_Quat.v
theories/S_Quat.v
theories/L_Quat.v
theories/P_Quat.v
theories/Mat.v
theories/M_Mueller.v
theories/S_Mueller.v
theories/L_Mueller.v
theories/L_Jones.v
theories/L_JonesRot.v
theories/L_Blmxhwp.v
theories/P_Mueller.v
theories/M_Transfer.v
theories/S_Transfer.v
theories/L_Layer.v
theories/L_Layer2.v
theories/L_Power.v
theories/L_Stack.v
theories/L_Stack2.v
theories/L_Band.v
theories/L_Average.v
theories/L_Normal.v
theories/L_Axis.v
theories/L_Waveplate.v
theories/L_Plate.v
theories/L_Oblique.v
theories/L_Oblique2.v
theories/S_Plates.v
theories/L_Plates.v
theories/P_Transfer.v
theories/M_Tod.v
theories/S_Tod.v
theories/L_Tod.v
theories/L_Tod2.v
theories/L_Tod3.v
theories/P_Tod.v
theories/M_Spin.v
theories/S_Spin.v
theories/L_Spin.v
theories/L_Spin2.v
theories/L_Spin3.v
theories/L_Spin4.v
theories/L_Spin5.v
theories/L_Spin6.v
theories/P_Spin.v
theories/M_Detpair.v
theories/S_Detpair.v
theories/L_Detpair.v
theories/P_Detpair.v
theories/M_Scan.v
theories/S_Scan.v
theories/L_Scan.v
theories/L_Scan2.v
theories/L_Scan3.v
theories/L_Scan4.v
theories/L_Scan5.v
theories/L_Scan6.v
theories/L_Scan7.v
theories/L_Scan8.v
theories/L_Scan9.v
theories/L_ScanEx.v
theories/P_Scan.v
theories/L_Scan10.v
theories/L_Scan11.v
theories/L_ScanEx2.v
theories/P_Repeat.v
theories/S_Saved.v
theories/L_Scan12.v
theories/L_Scan13.v
theories/L_Scan14.v
theories/L_Scan15.v
theories/L_Scan16.v
theories/L_Scan17.v
theories/L_Scan18.v
theories/L_Scan19.v
theories/L_Scan20.v
theories/L_ScanEx3.v
theories/L_PairEx.v
theories/L_ScanEx4.v
theories/L_Absent.v
theories/P_Saved.v
theories/S_Reuse.v
theories/L_Reuse.v
theories/L_ReuseEx.v
theories/P_Reuse.v
theories/S_Save.v
theories/L_Save.v
theories/L_Save2.v
theories/L_Save3.v
theories/P_Save.v
theories/S_Contrib.v
theories/L_Contrib.v
theories/L_Contrib2.v
theories/L_Contrib3.v
theories/P_Contrib.v
theories/M_Point.v
theories/S_Point.v
theories/L_Point.v
theories/L_Point2.v
theories/L_Point3.v
theories/L_Point4.v
theories/P_Point.v
theories/M_L2.v
theories/S_L2.v
theories/L_L2.v
theories/L_L2b.v
theories/L_L2c.v
theories/L_L2d.v
theories/P_L2.v
theories/M_Filter.v
theories/L_Filter.v
theories/L_Filter2.v
theories/L_Filter3.v
theories/P_Filter.v
theories/M_Solve.v
theories/S_Solve.v
theories/L_Solve.v
theories/P_Solve.v
theories/M_Float.v
theories/L_Float.v
theories/P_Float.v
theories/S_Linear.v
theories/L_Linear.v
theories/L_Linear2.v
theories/S_LinearScan.v
theories/L_Linear3.v
theories/L_Linear4.v
theories/L_Linear5.v
theories/L_LinearEx.v
theories/P_Linear.v
theories/S_Beam.v
theories/L_BeamInit.v
theories/L_ReuseBlm.v
theories/P_Beam.v
theories/L_FocalInput.v
theories/P_FocalInput.v
theories/M_Bin.v
theories/S_Bin.v
theories/L_Bin.v
theories/L_Bin2.v
theories/L_Bin3.v
theories/L_Bin4.v
theories/L_BinEx.v
theories/P_Bin.v
theories/S_Complete.v
theories/L_Complete.v
theories/L_Complete2.v
theories/L_Complete3.v
theories/L_Complete4.v
theories/L_CompleteEx.v
theories/P_Complete.v
theories/M_Gauss.v
theories/S_Gauss.v
theories/L_Gauss.v
theories/P_Gauss.v
theories/M_Random.v
theories/S_Random.v
theories/L_Random.v
theories/P_Random.v
theories/S_Cross.v
theories/L_Cross.v
theories/P_Cross.v
theories/M_Ranks.v
theories/S_Ranks.v
theories/L_Ranks.v
theories/P_Ranks.v
theories/M_Plot.v
theories/S_Plot.v
theories/L_Round.v
theories/L_Plot.v
theories/L_Plot2.v
theories/P_Plot.v
theories/S_Interrupt.v
theories/L_Interrupt.v
theories/L_Interrupt2.v
theories/L_InterruptEx.v
theories/P_Interrupt.v
theories/M_MapHist.v
theories/S_MapHist.v
theories/L_MapHist.v
theories/P_MapHist.v
theories/S_Pair.v
theories/L_Pair.v
theories/P_Pair.v
theories/S_Talk.v
theories/L_Talk.v
theories/L_TalkEx.v
theories/P_Talk.v
theories/M_Modes.v
theories/S_Modes.v
theories/L_Modes.v
theories/L_Modes2.v
theories/P_Modes.v
theories/S_Ground.v
theories/L_Ground.v
theories/L_GroundEx.v
theories/P_Ground.v
theories/L_Left.v
theories/L_Left2.v
theories/L_LeftEx.v
theories/P_Left.v
theories/M_Divide.v
theories/S_Divide.v
theories/L_Divide.v
theories/L_DivideEx.v
theories/P_Divide.v
