-Q theories Verif
theories/Approx.v
theories/Asin_Num.v
theories/Asinf_Model.v
theories/Asinf_Proof.v
theories/Asinf_Props.v
theories/Asprintf_Model.v
theories/Asprintf_Props.v
theories/Atan_Num.v
theories/Atanf_Model.v
theories/Atanf_Proof.v
theories/Atanf_Props.v
theories/Base.v
theories/Bits.v
theories/Cbrtf_Model.v
theories/Cbrtf_Proof.v
theories/Cbrtf_Props.v
theories/Cdiv_Acc_Proof.v
theories/Cdiv_Inf_Proof.v
theories/Cdiv_Model.v
theories/Cdiv_Proof.v
theories/Cdiv_Props.v
theories/Cdiv_Scale_Proof.v
theories/Complex_Div_Proof.v
theories/Complex_Model.v
theories/Complex_Proof.v
theories/Complex_Props.v
theories/Complex_Spec.v
theories/Csqrt_Model.v
theories/Csqrt_Proof.v
theories/Csqrt_Props.v
theories/Csqrt_Spec.v
theories/Ctype_Model.v
theories/Ctype_Proof.v
theories/Ctype_Props.v
theories/Ctype_Spec.v
theories/Elem_Num.v
theories/Elem_Proof.v
theories/Elem_Spec.v
theories/Expf_Model.v
theories/Expf_Proof.v
theories/Expf_Props.v
theories/FP.v
theories/FPInt.v
theories/FPOps.v
theories/FP_Proof.v
theories/Ferr.v
theories/Files_Model.v
theories/Files_Proof.v
theories/Files_Props.v
theories/Files_Spec.v
theories/Fmaf_Proof.v
theories/Fmaf_Props.v
theories/HW.v
theories/HW_Proof.v
theories/Hyperf2_Proof.v
theories/Hyperf3_Proof.v
theories/Hyperf_Model.v
theories/Hyperf_Proof.v
theories/Hyperf_Props.v
theories/Hypotf_Model.v
theories/Hypotf_Num.v
theories/Hypotf_Proof.v
theories/Hypotf_Props.v
theories/Hypotf_Real.v
theories/Int128_Div_Proof.v
theories/Int128_Float_Model.v
theories/Int128_Float_Proof.v
theories/Int128_Float_Props.v
theories/Int128_Model.v
theories/Int128_Proof.v
theories/Int128_Props.v
theories/Logf_Kernel.v
theories/Logf_Model.v
theories/Logf_Proof.v
theories/Logf_Props.v
theories/Loginv2_Proof.v
theories/Loginv3_Proof.v
theories/Loginv_Proof.v
theories/Loginv_Props.v
theories/Math_Basic_Proof.v
theories/Math_Conv_Proof.v
theories/Math_Fmod_Proof.v
theories/Math_Int_Proof.v
theories/Math_Lconv_Proof.v
theories/Math_Lround_Proof.v
theories/Math_Misc_Proof.v
theories/Math_Model.v
theories/Math_Props.v
theories/Math_Rem_Proof.v
theories/Math_Round_Proof.v
theories/Math_Round_Props.v
theories/Math_Scalbn_Proof.v
theories/Math_Spec.v
theories/Mathl_Model.v
theories/Mathl_Proof.v
theories/Mathl_Props.v
theories/Mathl_Spec.v
theories/Midpoint.v
theories/Perror_Model.v
theories/Perror_Props.v
theories/Pi_Num.v
theories/Powi_Model.v
theories/Powi_Proof.v
theories/Powi_Props.v
theories/Printf_FLen_Proof.v
theories/Printf_F_Proof.v
theories/Printf_Fixed_Model.v
theories/Printf_Fixed_Proof.v
theories/Printf_Fixed_Spec.v
theories/Printf_Fmt_Proof.v
theories/Printf_Hex_Proof.v
theories/Printf_Hex_Spec.v
theories/Printf_Len_Proof.v
theories/Printf_Limb_Proof.v
theories/Printf_Model.v
theories/Printf_Proof.v
theories/Printf_Props.v
theories/Printf_Small_Proof.v
theories/Printf_Spec.v
theories/Printf_Str_Proof.v
theories/Proc_Model.v
theories/Proc_Proof.v
theories/Proc_Props.v
theories/Proc_Spec.v
theories/Rne.v
theories/Scanf_Int_Proof.v
theories/Scanf_Loop_Proof.v
theories/Scanf_Model.v
theories/Scanf_Proof.v
theories/Scanf_Props.v
theories/Scanf_Spec.v
theories/Scanf_Str_Proof.v
theories/Sort_Model.v
theories/Sort_Proof.v
theories/Sort_Props.v
theories/Sort_Spec.v
theories/Sort_Swap_Model.v
theories/Sort_Swap_Proof.v
theories/Stdio_Model.v
theories/Stdio_Pos_Proof.v
theories/Stdio_Proof.v
theories/Stdio_Props.v
theories/Stdio_Spec.v
theories/Stdlib_Model.v
theories/Stdlib_Proof.v
theories/Stdlib_Props.v
theories/Stdlib_Spec.v
theories/Str_Copy_Proof.v
theories/Str_Model.v
theories/Str_Proof.v
theories/Str_Props.v
theories/Str_Seq_Proof.v
theories/Str_Spec.v
theories/Str_Tok_Proof.v
theories/Strerror_Model.v
theories/Strerror_Props.v
theories/Strstr_Model.v
theories/Strstr_Proof.v
theories/Strstr_Top_Proof.v
theories/Strtod_Arith_Proof.v
theories/Strtod_Dec_Proof.v
theories/Strtod_Gap_Proof.v
theories/Strtod_Gap_Table.v
theories/Strtod_HexRound_Proof.v
theories/Strtod_HexText_Proof.v
theories/Strtod_Hex_Proof.v
theories/Strtod_Model.v
theories/Strtod_Parse_Proof.v
theories/Strtod_Proof.v
theories/Strtod_Props.v
theories/Strtod_Round_Proof.v
theories/Strtod_Spec.v
theories/Strtod_Special_Proof.v
theories/Subdiv.v
theories/Tf_Add_Proof.v
theories/Tf_Add_Props.v
theories/Tf_Div_Props.v
theories/Tf_Int_Proof.v
theories/Tf_Model.v
theories/Tf_Mul_Proof.v
theories/Tf_Narrow_Proof.v
theories/Tf_Proof.v
theories/Tf_Props.v
theories/Tf_Sub_Proof.v
theories/Tf_Widen_Proof.v
theories/Time_Fmt_Proof.v
theories/Time_Model.v
theories/Time_Proof.v
theories/Time_Props.v
theories/Time_Spec.v
theories/Trig_Num.v
theories/Trigf_Kernel.v
theories/Trigf_Model.v
theories/Trigf_Proof.v
theories/Trigf_Props.v
theories/Trigf_Red.v
theories/Utf8_Model.v
theories/Utf8_Proof.v
theories/Utf8_Props.v
theories/Utf8_Spec.v
theories/Utf8_Str_Proof.v
theories/Wasi_Model.v
theories/Wasi_Proof.v
theories/Wasi_Props.v
theories/Wasi_Spec.v
theories/Wcs_Model.v
theories/Wcs_Proof.v
theories/Wcs_Props.v
theories/Wcs_Spec.v
theories/Wparse_Model.v
theories/Wparse_Proof.v
theories/Wparse_Props.v
theories/Wprintf_Model.v
theories/Wprintf_Proof.v
theories/Wprintf_Props.v
theories/Wstdio_Model.v
theories/Wstdio_Proof.v
theories/Wstdio_Props.v
theories/Wstdio_Spec.v
