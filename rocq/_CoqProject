-Q theories Verif
theories/Num.v
theories/Globals.v
theories/Mem.v
theories/M_Math.v
theories/M_TV.v
theories/P_Mem.v
theories/P_Loop.v
theories/P_TV.v
theories/L_Sum.v
theories/S_Vec.v
theories/P_TVR.v
theories/S_Mem.v
theories/P_TVX.v
theories/T_TV.v
theories/P_Math.v
theories/P_VCL.v
theories/P_MathR.v
theories/T_Math.v
theories/M_Memory.v
theories/P_Memory.v
theories/T_Memory.v
theories/P_Touch.v
theories/M_LineSearch.v
theories/M_CG.v
theories/P_LineSearch.v
theories/T_LineSearch.v
theories/P_Step.v
theories/P_CG.v
theories/L_ER.v
theories/L_Lin.v
theories/P_CGR.v
theories/T_CG.v
theories/M_Status.v
theories/P_Own.v
theories/M_Bregman.v
theories/P_Bregman.v
theories/P_Breg2.v
theories/P_Breg3.v
theories/S_Img.v
theories/P_BregR.v
theories/P_BregX.v
theories/T_Bregman.v
theories/M_Newton.v
theories/P_Newton.v
theories/P_Newt2.v
theories/P_Newt3.v
theories/P_Newt4.v
theories/P_Newt5.v
theories/P_Own2.v
theories/P_Newt6.v
theories/P_Newt7.v
theories/P_Newt8.v
theories/S_Newt.v
theories/P_NewtX.v
theories/P_NewtX2.v
theories/P_NewtX3.v
theories/L_Barrier.v
theories/P_NewtR.v
theories/E_Sub.v
theories/P_Newt9.v
theories/T_Newton.v
theories/T_NewtonR.v
theories/M_Nesta.v
theories/P_Nesta.v
theories/P_Own3.v
theories/P_Nesta2.v
theories/S_Nesta.v
theories/L_Nesta.v
theories/E_Op.v
theories/P_NestaF.v
theories/P_NestaR.v
theories/P_Nesta3.v
theories/T_Nesta.v
theories/T_NestaE.v
theories/M_FFTW.v
theories/M_Dct1.v
theories/M_Dct2.v
theories/M_Dct.v
theories/M_Matrix.v
theories/M_TVt.v
theories/P_FFTW.v
theories/P_Dct1.v
theories/P_Dct1s.v
theories/P_Dct2.v
theories/P_Dct2s.v
theories/S_Dct.v
theories/L_Cos.v
theories/P_DctR.v
theories/P_Dct2R.v
theories/S_Xform.v
theories/P_Xform.v
theories/S_DctApi.v
theories/P_Dct.v
theories/P_DctA.v
theories/E_Dct.v
theories/T_Dct.v
theories/T_DctLife.v
theories/P_Matrix.v
theories/T_Matrix.v
theories/P_TVt.v
theories/S_TVtApi.v
theories/P_TVs.v
theories/P_TVa.v
theories/P_TVuR.v
theories/T_TVt.v
theories/S_Par.v
theories/M_L1qcDct.v
theories/S_L1qcDct.v
theories/P_L1qcDct.v
theories/P_DctE.v
theories/T_L1qcDct.v
theories/M_Par.v
theories/P_Par.v
theories/P_ParLoops.v
theories/T_Par.v
theories/NumB.v
theories/M_Logging.v
theories/M_MexUtils.v
theories/M_Mex.v
theories/S_Mex.v
theories/P_Mex.v
theories/P_Mex2.v
theories/T_Mex.v
theories/T_MexBreg.v
theories/M_Json.v
theories/T_Json.v
theories/P_NestaG.v
theories/P_NestaGR.v
theories/P_TVtE.v
theories/P_NestaTV.v
theories/T_NestaTV.v
theories/S_MexNesta.v
theories/P_MexNesta.v
theories/T_MexNesta.v
theories/M_Py.v
theories/S_Py.v
theories/P_Py.v
theories/P_Py2.v
theories/P_Py3.v
theories/T_PyL1qc.v
theories/T_PyBreg.v
theories/P_PyNesta.v
theories/T_PyNesta.v
theories/L_Rate.v
theories/S_NestaRate.v
theories/L_Min.v
theories/P_NestaRate.v
theories/T_NestaRate.v
theories/T_NestaTVRate.v
theories/P_CGRate.v
theories/T_CGRate.v
theories/S_NewtRun.v
theories/L_Cert.v
theories/P_NewtRun.v
theories/P_NewtRun2.v
theories/T_NewtRun.v
theories/P_NestaDct.v
theories/T_NestaDct.v
theories/S_Round.v
theories/L_Round.v
theories/P_Round.v
theories/T_Round.v
theories/M_VclLog.v
theories/L_LogApprox.v
theories/L_VclLog.v
theories/P_VclLog.v
theories/T_VclLog.v
theories/M_Example.v
theories/T_Example.v
theories/M_MatOpts.v
theories/T_MatOpts.v
theories/L_RoundTV.v
theories/T_RoundTV.v
theories/L_RoundGS.v
theories/T_RoundGS.v
theories/T_RoundUStep.v
theories/T_Thin.v
theories/L_BregBound.v
theories/T_BregBound.v
theories/T_BregDescent.v
theories/T_BregNear.v
theories/T_BregTol.v
theories/T_BregScale.v
theories/T_BregMean.v
theories/T_RoundMat.v
theories/T_BregCmp.v
