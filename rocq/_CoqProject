-Q theories Verif
theories/Base.v
theories/Base_proofs.v
theories/Layout.v
theories/Io.v
theories/Mem.v
theories/SpecMem.v
theories/Mem_proofs.v
theories/Text.v
theories/Cmdline.v
theories/SpecCmdline.v
theories/Text_proofs.v
theories/Cmdline_proofs.v
theories/Cmdline_proofs2.v
theories/Cmdline_proofs3.v
theories/Props_Cmdline.v
theories/Loader.v
theories/Elf.v
theories/BzImage.v
theories/Pe.v
theories/BootParams.v
theories/Configurators.v
theories/SpecFile.v
theories/SpecElf.v
theories/File_proofs.v
theories/Align_proofs.v
theories/Elf_proofs.v
theories/Elf_proofs2.v
theories/Note_proofs.v
theories/Demo_elf.v
theories/Props_Elf.v
theories/Props_Loader.v
theories/SpecBz.v
theories/Bz_proofs.v
theories/Props_Bz.v
theories/SpecPe.v
theories/Pe_proofs.v
theories/Props_Pe.v
theories/Props_Config.v
theories/SpecBoot.v
theories/Boot_proofs.v
theories/Props_Boot.v
theories/SpecAbi.v
theories/Layout_proofs.v
theories/Props_Abi.v
theories/SpecVmm.v
theories/Vmm_proofs.v
theories/Props_Vmm.v
theories/Sim_proofs.v
theories/Props_Env.v
theories/Props_Boot_e2e.v
theories/Display.v
theories/SpecDisplay.v
theories/Props_Display.v
theories/ElfHelpers.v
theories/Props_ElfHelpers.v
theories/Props_Fault.v
theories/Props_Bytes.v
theories/Props_Place.v
theories/SpecTrace.v
theories/Trace_proofs.v
theories/Props_Trace.v
theories/Source.v
theories/RawIo.v
theories/Raw_proofs.v
theories/Props_Raw.v
theories/SpecKernel.v
theories/Kernel_proofs.v
theories/Props_Kernel.v
theories/SpecDecide.v
theories/Props_Decide.v
theories/SpecHistory.v
theories/Props_History.v
theories/SpecParams.v
theories/Props_Params.v
theories/Host.v
theories/SpecHost.v
theories/Host_proofs.v
theories/Host_proofs2.v
theories/Props_Host.v
theories/SpecEffect.v
theories/Effect_proofs.v
theories/Props_Effect.v
theories/Endian.v
theories/Props_Endian.v
theories/SpecLife.v
theories/Props_Life.v
theories/SpecTalk.v
theories/Talk_proofs.v
theories/Props_Talk.v
theories/Props_Talk2.v
theories/SpecLaws.v
theories/Props_Laws.v
theories/Props_LawsBoot.v
theories/Utf8.v
theories/SpecUtf8.v
theories/Utf8_proofs.v
theories/Props_Utf8.v
theories/SpecTwin.v
theories/Twin_proofs.v
theories/Props_Twin.v
theories/Ask.v
theories/SpecAsk.v
theories/Ask_proofs.v
theories/Ask_proofs2.v
theories/Ask_proofs3.v
theories/Ask_proofs4.v
theories/Props_Ask.v
theories/UserText.v
theories/SpecUser.v
theories/Props_User.v
theories/SpecMove.v
theories/Props_Move.v
theories/Derived.v
theories/Props_Derived.v
theories/Heap.v
theories/Props_Heap.v
theories/Fixtures.v
theories/Conformance.v
theories/SpecDriver.v
theories/Props_Driver.v
theories/SpecGuest.v
theories/Props_Guest.v
theories/Props_GuestPvh.v
theories/Props_GuestCases.v
theories/Props_Fail.v
theories/Props_GuestElf.v
theories/SpecSpace.v
theories/Props_Space.v
theories/Props_Routes.v
theories/DebugText.v
theories/Props_Debug.v
theories/SpecRace.v
theories/Props_Race.v
theories/SpecSwap.v
theories/Props_Swap.v
theories/Props_Limit.v
theories/SpecDtb.v
theories/Dtb_proofs.v
theories/Dtb_proofs2.v
theories/Props_Dtb.v
theories/Props_Started.v
theories/Constants.v
theories/SpecConstants.v
theories/Props_Constants.v
theories/Pretty.v
theories/Props_Pretty.v
theories/Cfg.v
theories/Props_Cfg.v
theories/Benches.v
theories/Props_Bench.v
theories/GuestMap.v
theories/SpecGuestMap.v
theories/Props_GuestMap.v
theories/SpecTexts.v
theories/Props_Texts.v
