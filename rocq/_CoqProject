-Q theories Verif
theories/Base.v
theories/BaseLemmas.v
theories/Swap_Model.v
theories/Swap_Spec.v
theories/Swap_Proofs.v
theories/Heap_Model.v
theories/Heap_Spec.v
theories/Heap_Proofs.v
theories/Properties_Heap.v
theories/MachInt.v
theories/SliceLemmas.v
theories/Bip_Model.v
theories/Bip_Spec.v
theories/Bip_Proofs.v
theories/Properties_Bip.v
theories/Algo_Model.v
theories/Algo_Spec.v
theories/Algo_Proofs.v
theories/Properties_Algo.v
theories/Charconv_Model.v
theories/Charconv_Spec.v
theories/Charconv_Proofs.v
theories/Properties_Charconv.v
theories/Ios_Model.v
theories/Ios_Proofs.v
theories/Properties_Ios.v
theories/Streambuf_Model.v
theories/Istream_Model.v
theories/Stream_Spec.v
theories/Stream_Drive.v
theories/Stream_Proofs.v
theories/Properties_Stream.v
theories/Ostream_Model.v
theories/Ostream_Spec.v
theories/Ostream_Proofs.v
theories/Properties_Ostream.v
theories/Numio_Model.v
theories/Numio_Spec.v
theories/Numio_Proofs.v
theories/Properties_Numio.v
theories/Deque_Spec.v
theories/Deque_Model.v
theories/Deque_Proofs.v
theories/Properties_Deque.v
theories/Unordered_Spec.v
theories/Unordered_Model.v
theories/Unordered_Proofs.v
theories/Properties_Unordered.v
theories/Dyn_Spec.v
theories/Dyn_Model.v
theories/Dyn_View.v
theories/Dyn_Proofs.v
theories/Dyn_Bounds.v
theories/Properties_Dyn.v
theories/Str_Spec.v
theories/Str_Model.v
theories/Str_View.v
theories/Str_Proofs.v
theories/Properties_Str.v
theories/Pool_Spec.v
theories/Pool_Model.v
theories/Pool_Proofs.v
theories/Properties_Pool.v
theories/Lnk_Spec.v
theories/Lnk_Model.v
theories/Lnk_Proofs.v
theories/Lnk_Proofs2.v
theories/Properties_Lnk.v
theories/Ref_Spec.v
theories/Ref_Model.v
theories/Ref_Proofs.v
theories/Properties_Ref.v
theories/Hash_Spec.v
theories/Hash_Model.v
theories/Hash_Proofs.v
theories/Properties_Hash.v
theories/Ratio_Spec.v
theories/Ratio_Model.v
theories/Ratio_Proofs.v
theories/Properties_Ratio.v
theories/Chrono_Spec.v
theories/Chrono_Model.v
theories/Chrono_Proofs.v
theories/Properties_Chrono.v
theories/Span_Spec.v
theories/Span_Model.v
theories/Span_Proofs.v
theories/Properties_Span.v
theories/Vst_Model.v
theories/Vst_Proofs.v
theories/Var_Model.v
theories/Var_Spec.v
theories/Var_Proofs.v
theories/Properties_Var.v
theories/Opt_Model.v
theories/Opt_Spec.v
theories/Opt_Proofs.v
theories/Properties_Opt.v
theories/Exp_Model.v
theories/Exp_Spec.v
theories/Exp_Proofs.v
theories/Properties_Exp.v
theories/Tup_Model.v
theories/Tup_Spec.v
theories/Tup_Proofs.v
theories/Properties_Tup.v
theories/Sptr_Model.v
theories/Sptr_Spec.v
theories/Sptr_Proofs.v
theories/Properties_Sptr.v
theories/Bipsb_Model.v
theories/Bipsb_Spec.v
theories/Bipsb_Proofs.v
theories/Properties_Bipsb.v
theories/Fun_Model.v
theories/Fun_Spec.v
theories/Fun_Proofs.v
theories/Properties_Fun.v
theories/Sstr_Spec.v
theories/Sstr_Model.v
theories/Sstr_Proofs.v
theories/Properties_Sstr.v
theories/Ctype_Spec.v
theories/Ctype_Model.v
theories/Ctype_Proofs.v
theories/Properties_Ctype.v
theories/Timep_Spec.v
theories/Timep_Model.v
theories/Timep_Proofs.v
theories/Properties_Timep.v
theories/Units_Spec.v
theories/Units_Model.v
theories/Units_Proofs.v
theories/Properties_Units.v
theories/Lock_Spec.v
theories/Lock_Model.v
theories/Lock_Proofs.v
theories/Properties_Lock.v
theories/Mq_Spec.v
theories/Mq_Model.v
theories/Mq_Proofs.v
theories/Properties_Mq.v
theories/Bits_Spec.v
theories/Bits_Model.v
theories/Bits_Proofs.v
theories/Properties_Bits.v
theories/Cb_Spec.v
theories/Cb_Model.v
theories/Cb_Proofs.v
theories/Properties_Cb.v
theories/Vm_Spec.v
theories/Vm_Model.v
theories/Vm_Proofs.v
theories/Properties_Vm.v
theories/Mp_Spec.v
theories/Mp_Model.v
theories/Mp_Proofs.v
theories/Properties_Mp.v
theories/Conv_Spec.v
theories/Conv_Model.v
theories/Conv_Proofs.v
theories/Properties_Conv.v
theories/Wrd_Spec.v
theories/Wrd_Model.v
theories/Wrd_Proofs.v
theories/Properties_Wrd.v
theories/Evg_Spec.v
theories/Evg_Model.v
theories/Evg_Proofs.v
theories/Properties_Evg.v
theories/Tmr_Spec.v
theories/Tmr_Model.v
theories/Tmr_Proofs.v
theories/Properties_Tmr.v
theories/Itr_Spec.v
theories/Itr_Model.v
theories/Itr_Proofs.v
theories/Properties_Itr.v
theories/Arr_Spec.v
theories/Arr_Model.v
theories/Arr_Proofs.v
theories/Properties_Arr.v
theories/Grow_Spec.v
theories/Grow_Model.v
theories/Grow_Proofs.v
theories/Properties_Grow.v
theories/Acc_Spec.v
theories/Acc_Model.v
theories/Acc_Proofs.v
theories/Properties_Acc.v
theories/Obs_Spec.v
theories/Obs_Model.v
theories/Obs_Proofs.v
theories/Properties_Obs.v
theories/Dev_Spec.v
theories/Dev_Model.v
theories/Dev_Proofs.v
theories/Properties_Dev.v
theories/Pgm_Spec.v
theories/Pgm_Model.v
theories/Pgm_View.v
theories/Pgm_Proofs.v
theories/Properties_Pgm.v
theories/Tt_Lang.v
theories/Tt_Spec.v
theories/Tt_Model.v
theories/Tt_Proofs.v
theories/Properties_Tt.v
theories/Fnt_Lang.v
theories/Fnt_Spec.v
theories/Fnt_Model.v
theories/Fnt_Proofs.v
theories/Properties_Fnt.v
theories/Lkd_Spec.v
theories/Lkd_Model.v
theories/Lkd_Proofs.v
theories/Properties_Lkd.v
theories/Flt_Spec.v
theories/Flt_Model.v
theories/Flt_View.v
theories/Flt_Proofs.v
theories/Properties_Flt.v
theories/Life_Spec.v
theories/Life_Model.v
theories/Life_Proofs.v
theories/Properties_Life.v
theories/Novf_Spec.v
theories/Novf_Model.v
theories/Novf_Proofs.v
theories/Properties_Novf.v
theories/Ulife_Spec.v
theories/Ulife_Model.v
theories/Ulife_Proofs.v
theories/Properties_Ulife.v
theories/Gct_Spec.v
theories/Gct_Model.v
theories/Gct_Proofs.v
theories/Properties_Gct.v
theories/Nlife_Spec.v
theories/Nlife_Model.v
theories/Nlife_Proofs.v
theories/Properties_Nlife.v
theories/Sbit_Model.v
theories/Sbit_Proofs.v
theories/Properties_Sbit.v
theories/Dput_Spec.v
theories/Dput_Model.v
theories/Dput_Proofs.v
theories/Properties_Dput.v
theories/Psp_Model.v
theories/Psp_Spec.v
theories/Psp_Proofs.v
theories/Properties_Psp.v
theories/Ymd_Spec.v
theories/Ymd_Proofs.v
theories/Properties_Ymd.v
theories/Uerase_Proofs.v
theories/Properties_Uerase.v
theories/Slp_Model.v
theories/Slp_Spec.v
theories/Properties_Slp.v
theories/Ueq_Model.v
theories/Ueq_Proofs.v
theories/Properties_Ueq.v
theories/Dmv_Model.v
theories/Properties_Dmv.v
theories/Properties_Pico.v
theories/Sch_Model.v
theories/Sch_Spec.v
theories/Sch_Proofs.v
theories/Properties_Sch.v
theories/Aln_Spec.v
theories/Aln_Model.v
theories/Aln_Proofs.v
theories/Properties_Aln.v
theories/Ard_Model.v
theories/Ard_Proofs.v
theories/Properties_Ard.v
theories/Xch_Spec.v
theories/Xch_Model.v
theories/Xch_Proofs.v
theories/Properties_Xch.v
theories/Lit_Spec.v
theories/Lit_Model.v
theories/Lit_Proofs.v
theories/Properties_Lit.v
theories/Evp_Spec.v
theories/Evp_Model.v
theories/Evp_Proofs.v
theories/Properties_Evp.v
