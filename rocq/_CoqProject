-Q theories Verif
theories/M_Base.v
theories/M_Arith.v
theories/M_Utils.v
theories/M_Vector.v
theories/M_Matrix.v
theories/M_Quaternion.v
theories/M_Dsp.v
theories/M_Sensors.v
theories/M_Ar.v
theories/M_Aqua.v
theories/M_F32.v
theories/M_RX.v
theories/S_Spec.v
theories/S_Access.v
theories/S_Shape.v
theories/P_Hoare.v
theories/P_Cont.v
theories/P_Loops.v
theories/P_Inst.v
theories/P_Access.v
theories/P_Pointwise.v
theories/P_Shape.v
theories/T_Access.v
theories/T_Pointwise.v
theories/T_Shape.v
theories/S_Linalg.v
theories/P_Uninit.v
theories/P_Trans.v
theories/P_Float.v
theories/P_Product.v
theories/T_Uninit.v
theories/T_Trans.v
theories/T_Product.v
theories/S_Compare.v
theories/P_Compare.v
theories/P_Diag.v
theories/P_Dot.v
theories/T_Compare.v
theories/T_Diag.v
theories/T_Dot.v
theories/S_Norm.v
theories/P_Norm.v
theories/P_FErr.v
theories/P_Norm32.v
theories/P_Interp.v
theories/T_Norm.v
theories/T_Norm32.v
theories/T_Interp.v
theories/S_Quat.v
theories/P_InstQ.v
theories/P_Quat.v
theories/P_Rot.v
theories/P_QPred.v
theories/P_Dcm.v
theories/P_Euler.v
theories/P_QExp.v
theories/T_Quat.v
theories/T_Rot.v
theories/T_QPred.v
theories/T_Dcm.v
theories/T_Euler.v
theories/T_QExp.v
theories/S_Lu.v
theories/P_Lup.v
theories/P_Solve.v
theories/T_Lup.v
theories/T_Solve.v
theories/P_Det.v
theories/T_Det.v
theories/P_Lr.v
theories/T_Lr.v
theories/P_Qr.v
theories/T_Qr.v
theories/P_Chol.v
theories/T_Chol.v
theories/S_Decomp.v
theories/P_So.v
theories/T_So.v
theories/P_Eig.v
theories/T_Eig.v
theories/S_Sensors.v
theories/P_Sensors.v
theories/T_Sensors.v
theories/S_Ar.v
theories/P_Ar.v
theories/T_Ar.v
theories/P_Ar32.v
theories/T_Ar32.v
theories/P_ArZ.v
theories/T_ArZ.v
theories/P_ArR.v
theories/P_ArT.v
theories/T_ArR.v
theories/T_ArT.v
theories/S_Dav.v
theories/P_Dav.v
theories/T_Dav.v
theories/S_Aqua.v
theories/P_Aqua.v
theories/P_AquaG.v
theories/T_Aqua.v
theories/T_AquaG.v
theories/P_AquaR.v
theories/T_AquaR.v
theories/S_Dsp.v
theories/P_Dsp.v
theories/T_Dsp.v
theories/S_Scalar.v
theories/P_Scalar.v
theories/T_Scalar.v
theories/P_Rand.v
theories/T_Rand.v
theories/P_Safe.v
theories/P_SafeOps.v
theories/S_Reach.v
theories/P_Reach.v
theories/T_Reach.v
theories/S_AquaM.v
theories/P_AquaM.v
theories/P_AquaN.v
theories/P_AquaU.v
theories/T_AquaM.v
theories/T_AquaN.v
theories/T_AquaU.v
theories/P_AquaD.v
theories/T_AquaD.v
theories/S_F32.v
theories/P_FAcc.v
theories/P_InstF.v
theories/P_F32Mul.v
theories/P_F32Rot.v
theories/T_F32Mul.v
theories/T_F32Rot.v
theories/S_Track.v
theories/P_F32Ar.v
theories/T_F32Ar.v
theories/S_Reading.v
theories/P_F32App.v
theories/P_F32Am.v
theories/P_AmGeo.v
theories/P_Am32.v
theories/T_Am32.v
theories/M_Print.v
theories/P_Print.v
theories/T_Print.v
theories/S_Eig.v
theories/P_QrConv.v
theories/P_EigConv.v
theories/T_EigConv.v
theories/S_Rest.v
theories/P_RestGeo.v
theories/P_MargRun.v
theories/P_RestF.v
theories/P_Rest32.v
theories/T_Rest32.v
theories/P_AmTrue.v
theories/T_AmTrue.v
theories/S_Lu32.v
theories/P_Lup32.v
theories/T_Lup32.v
theories/P_Hughes.v
theories/T_Hughes.v
theories/S_Euler32.v
theories/P_Euler32.v
theories/T_Euler32.v
theories/S_First.v
theories/P_ArFirst.v
theories/T_ArFirst.v
theories/S_Chol32.v
theories/P_Chol32.v
theories/T_Chol32.v
theories/P_Chia.v
theories/T_Chia.v
theories/P_Qr32.v
theories/T_Qr32.v
theories/P_Recog.v
theories/T_Recog.v
theories/P_Inv32.v
theories/T_Inv32.v
theories/S_Interp32.v
theories/P_Interp32.v
theories/T_Interp32.v
theories/P_Hughes32.v
theories/T_Hughes32.v
theories/P_Calib32.v
theories/T_Calib32.v
theories/S_Raw.v
theories/P_Raw.v
theories/T_Raw.v
theories/P_Sara32.v
theories/T_Sara32.v
theories/S_Frob.v
theories/P_Frob.v
theories/T_Frob.v
theories/P_Size.v
theories/T_Size.v
theories/S_RawGyr.v
theories/P_RawGyr.v
theories/T_RawGyr.v
theories/P_TayHigh.v
theories/T_TayHigh.v
theories/S_Cplx32.v
theories/P_Cplx32.v
theories/T_Cplx32.v
theories/S_Det32.v
theories/P_Det32.v
theories/T_Det32.v
theories/P_RawGyr1.v
theories/T_RawGyr1.v
theories/P_Witness.v
theories/T_Witness.v
theories/P_Crout.v
theories/T_Crout.v
theories/P_Log32.v
theories/T_Log32.v
theories/S_Exp32.v
theories/P_Exp32.v
theories/T_Exp32.v
theories/S_Pivot.v
theories/P_Pivot.v
theories/T_Pivot.v
theories/P_Accept.v
theories/T_Accept.v
theories/S_Angles.v
theories/P_Angles.v
theories/T_Angles.v
theories/P_LuIff.v
theories/T_LuIff.v
theories/S_Twin.v
theories/P_Twin.v
theories/T_Twin.v
theories/P_TwinA.v
theories/T_TwinA.v
theories/P_RotVec.v
theories/T_RotVec.v
theories/P_Angles1.v
theories/T_Angles1.v
theories/P_Sound.v
theories/T_Sound.v
theories/P_TwinR.v
theories/T_TwinR.v
theories/S_Direct.v
theories/P_Direct.v
theories/T_Direct.v
theories/P_Proper.v
theories/T_Proper.v
theories/P_Proper2.v
theories/T_Proper2.v
theories/P_Near.v
theories/T_Near.v
