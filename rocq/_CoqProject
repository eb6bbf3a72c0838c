-Q theories Verif
theories/Alloc/AllocModel.v
theories/Alloc/AllocLayout.v
theories/Alloc/AllocOps.v
theories/Alloc/AllocInv.v
theories/Alloc/AllocSteps.v
theories/Alloc/AllocNew.v
theories/Alloc/AllocFree.v
theories/Alloc/AllocSpec.v
theories/Alloc/AllocMain.v
theories/Alloc/AllocTop.v
theories/Comp/CpMem.v
theories/Comp/CpState.v
theories/Comp/CpCore.v
theories/Comp/CpRep.v
theories/Comp/CpCalls.v
theories/Comp/CpHist.v
theories/Comp/CpView.v
theories/Comp/CpErr.v
theories/Comp/CpPieces.v
theories/Comp/CpFinal.v
theories/Comp/CpCases.v
theories/Comp/CpSer.v
theories/Comp/CpSerImg.v
theories/Comp/CpSerParse.v
theories/Comp/CpSerW.v
theories/Comp/CpSerR.v
theories/Comp/CpSerT.v
theories/Comp/CpSerA.v
theories/Comp/CpSerCases.v
theories/Props/C01_alloc.v
theories/Stack/StackModel.v
theories/Stack/StackSpec.v
theories/Stack/StackProofs.v
theories/Props/C05_stack.v
theories/Rv/RvLib.v
theories/Rv/RvIsa.v
theories/Rv/RvEnc.v
theories/Rv/RvImm.v
theories/Rv/RvBits.v
theories/Rv/RvRun.v
theories/Rv/RvImmProofs.v
theories/Rv/RvConst.v
theories/Rv/RvAddr.v
theories/Rv/RvCtl.v
theories/Rv/RvAddrProofs.v
theories/Rv/RvTop1.v
theories/Rv/RvLink.v
theories/Rv/RvLinkOps.v
theories/Rv/RvLinkReduce.v
theories/Rv/RvLinkEst.v
theories/Rv/RvLinkGen.v
theories/Rv/RvLinkPick.v
theories/Rv/RvLinkFit.v
theories/Rv/RvLinkLay.v
theories/Rv/RvLinkLoop.v
theories/Rv/RvLinkPatch.v
theories/Rv/RvLinkAll.v
theories/Rv/RvLinkExec.v
theories/Rv/RvLinkApi.v
theories/Rv/RvLinkMap.v
theories/Rv/RvLinkSpec.v
theories/Rv/RvLinkThm.v
theories/Rv/RvLinkTop.v
theories/Rv/RvLinkBad.v
theories/Rv/RvWf.v
theories/Rv/RvMem.v
theories/Rv/RvRunMem.v
theories/Rv/RvOp.v
theories/Rv/RvLir.v
theories/Rv/RvCanon.v
theories/Rv/RvOpLib.v
theories/Rv/RvSx.v
theories/Rv/RvReach.v
theories/Rv/RvSoLogical.v
theories/Rv/RvSoAdd.v
theories/Rv/RvSoAddc.v
theories/Rv/RvSoSub.v
theories/Rv/RvSoSubc.v
theories/Rv/RvSoMul.v
theories/Rv/RvSoShift.v
theories/Rv/RvSoClz.v
theories/Rv/RvRevBits.v
theories/Rv/RvSoRev.v
theories/Rv/RvSoMov.v
theories/Rv/RvMemProofs.v
theories/Rv/RvEmitOp.v
theories/Rv/RvEmitOp2.v
theories/Rv/RvEmitOp1.v
theories/Rv/RvShiftInto.v
theories/Rv/RvOpTop.v
theories/Rv/RvOpBad.v
theories/Rv/RvCond.v
theories/Rv/RvCondSpec.v
theories/Rv/RvCondProofs.v
theories/Rv/RvCmp.v
theories/Rv/RvSelect.v
theories/Rv/RvOp0.v
theories/Rv/RvCondTop.v
theories/Rv/RvCondBad.v
theories/Rv/RvFrame.v
theories/Rv/RvFrameSpec.v
theories/Rv/RvFrameProofs.v
theories/Rv/RvFrameTop.v
theories/Rv/RvFrameRet.v
theories/Props/C06_buffers.v
theories/Props/C07_errors.v
theories/Props/C10_imm.v
theories/Props/C11_const.v
theories/Props/C12_rewritable_jump.v
theories/Props/C13_jumps.v
theories/Props/C14_memory.v
theories/Props/C15_address.v
theories/Props/C16_integer.v
theories/Props/C17_flags.v
theories/Props/C18_memory.v
theories/Props/C19_frame.v
theories/Props/C20_frame.v
theories/Props/C21_compare.v
theories/Props/C22_select.v
theories/Props/C23_format.v
theories/Props/C24_shift_into.v
theories/Props/C25_labels.v
theories/Props/C30_size.v
theories/Props/C31_op0.v
theories/Props/C32_calls.v
theories/Props/C33_free.v
theories/Props/C08_serialize.v
theories/Props/C09_undisturbed.v
theories/Props/C29_foreign.v
theories/Arm/ArmIsa.v
theories/Arm/ArmEnc.v
theories/Arm/ArmImm.v
theories/Arm/ArmBits.v
theories/Arm/ArmImmProofs.v
theories/Arm/ArmLogImm.v
theories/Arm/ArmLoadImm.v
theories/Props/C26_arm_imm.v
theories/Props/C27_logical_imm.v
theories/X86/X86Isa.v
theories/X86/X86Emit.v
theories/X86/X86Spec.v
theories/X86/X86Enc.v
theories/X86/X86EncTop.v
theories/X86/X86OpSpec.v
theories/X86/X86Op.v
theories/X86/X86Ins.v
theories/X86/X86Ins2.v
theories/X86/X86Mov.v
theories/X86/X86Bin.v
theories/X86/X86C28.v
theories/Props/C28_x86_encoding.v
theories/X86/X86Mul.v
theories/X86/X86Shift.v
theories/X86/X86Cond.v
theories/X86/X86Op2.v
theories/X86/X86Op2Top.v
theories/X86/X86C34.v
theories/Props/C34_x86_op2.v
theories/Props/C35_x86_conditions.v
theories/X86/X86Ins3.v
theories/X86/X86Op1.v
theories/X86/X86C36.v
theories/X86/X86Into.v
theories/X86/X86C37.v
theories/Props/C36_x86_op1.v
theories/Props/C37_x86_shift_into.v
theories/X86/X86Misc.v
theories/X86/X86MiscP.v
theories/X86/X86Op0P.v
theories/X86/X86C43.v
theories/Props/C43_x86_flags.v
theories/Props/C44_x86_op0.v
theories/X86/X86Link.v
theories/X86/X86LinkSpec.v
theories/X86/X86LinkOps.v
theories/X86/X86LinkRed.v
theories/X86/X86LinkGen.v
theories/X86/X86LinkFit.v
theories/X86/X86LinkRun.v
theories/X86/X86LinkTop.v
theories/X86/X86LinkAll.v
theories/X86/X86LinkHist.v
theories/X86/X86C38.v
theories/Props/C38_x86_memory.v
theories/Props/C39_x86_jumps.v
theories/Props/C40_x86_op_addr.v
theories/Props/C41_x86_set_jump_addr.v
theories/X86/X86Fetch.v
theories/X86/X86Const.v
theories/X86/X86ConstP.v
theories/X86/X86Lir.v
theories/X86/X86Prog.v
theories/X86/X86C42.v
theories/X86/X86Hist.v
theories/X86/X86C45.v
theories/Props/C42_x86_programs.v
theories/Props/C45_x86_const.v
theories/X86/X86Frame.v
theories/X86/X86FrameSpec.v
theories/X86/X86FrameBase.v
theories/X86/X86FrameRun.v
theories/X86/X86FrameArgs.v
theories/X86/X86FrameCall.v
theories/X86/X86FrameTop.v
theories/X86/X86C46.v
theories/Props/C46_x86_frame.v
theories/Imm/ImmLib.v
theories/Imm/LaIsa.v
theories/Imm/LaModel.v
theories/Imm/LaSpec.v
theories/Imm/LaProofs.v
theories/Imm/LaJump.v
theories/Imm/LaRefuted.v
theories/Props/C47_loongarch_imm.v
theories/Props/C48_loongarch_jump.v
theories/Imm/MsIsa.v
theories/Imm/MsModel.v
theories/Imm/MsSpec.v
theories/Imm/MsProofs.v
theories/Imm/MsJump.v
theories/Imm/MsRefuted.v
theories/Props/C49_mips_imm.v
theories/Props/C50_mips_jump.v
theories/Imm/PpIsa.v
theories/Imm/PpModel.v
theories/Imm/PpSpec.v
theories/Imm/PpProofs.v
theories/Imm/PpJump.v
theories/Imm/PpRefuted.v
theories/Props/C51_ppc_imm.v
theories/Props/C52_ppc_jump.v
theories/Arm/ArmBr.v
theories/Arm/ArmJump.v
theories/Arm/ArmJumpSpec.v
theories/Arm/ArmJumpProofs.v
theories/Arm/ArmCondProofs.v
theories/Props/C53_arm_const.v
theories/Props/C54_arm_jump.v
theories/Props/C55_arm_cond.v
theories/Arm/ArmOp.v
theories/Arm/ArmOpSpec.v
theories/Arm/ArmOpDec.v
theories/Arm/ArmOpProofs.v
theories/Arm/ArmOpImm.v
theories/Arm/ArmOp1.v
theories/Props/C56_arm_op2.v
theories/Props/C57_arm_op1.v
theories/Arm/ArmMem.v
theories/Arm/ArmMemSpec.v
theories/Arm/ArmMemProofs.v
theories/Arm/ArmMemOps.v
theories/Arm/ArmMemOp2.v
theories/Arm/ArmMemOp1.v
theories/Arm/ArmShift.v
theories/Props/C58_arm_mem.v
theories/Props/C59_arm_shift.v
theories/Arm/ArmPair.v
theories/Arm/ArmFrame.v
theories/Arm/ArmFrameSpec.v
theories/Arm/ArmFrameDec.v
theories/Arm/ArmFrameRun.v
theories/Arm/ArmFrameMem.v
theories/Arm/ArmFrameSeg.v
theories/Arm/ArmFrameProofs.v
theories/Props/C60_arm_frame.v
theories/Arm/ArmCsel.v
theories/Arm/ArmCselSpec.v
theories/Arm/ArmCselProofs.v
theories/Props/C61_arm_csel.v
theories/Arm/ArmRet.v
theories/Arm/ArmRetSpec.v
theories/Arm/ArmRetProofs.v
theories/Props/C62_arm_ret.v
theories/Arm/ArmTail.v
theories/Arm/ArmTailSpec.v
theories/Arm/ArmTailProofs.v
theories/Props/C63_arm_tail.v
theories/Arm/ArmCmp.v
theories/Arm/ArmCmpSpec.v
theories/Arm/ArmCmpProofs.v
theories/Props/C64_arm_cmp.v
theories/Arm/ArmVec.v
theories/Arm/ArmSimd.v
theories/Arm/ArmSimdSpec.v
theories/Arm/ArmSimdProofs.v
theories/Arm/ArmSimdRep.v
theories/Props/C65_arm_simd.v
