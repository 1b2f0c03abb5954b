-Q theories Verif
theories/Base.v
theories/Spec.v
theories/SpecFun.v
theories/Format.v
theories/P_format.v
theories/Ieee.v
theories/P_ieee.v
theories/P_real.v
theories/M_basic.v
theories/P_round.v
theories/P_round2.v
theories/P_minmax.v
theories/P_round3.v
theories/Prop_round.v
theories/Prop_minmax.v
theories/P_key.v
theories/M_bits.v
theories/P_bits.v
theories/P_trait.v
theories/Prop_decomp.v
theories/M_int.v
theories/P_int.v
theories/Prop_int.v
theories/SpecFun2.v
theories/M_fmod.v
theories/P_neg.v
theories/P_fmod.v
theories/P_remquo.v
theories/Prop_rem.v
theories/M_scalbn.v
theories/P_scalbn.v
theories/Prop_scale.v
theories/M_fma.v
theories/P_near.v
theories/P_fma.v
theories/P_fma2.v
theories/P_fma3.v
theories/P_fma4.v
theories/P_fmaf.v
theories/Prop_fma.v
theories/SpecFun3.v
theories/M_sqrt.v
theories/P_sqrt.v
theories/P_sqrt2.v
theories/P_sqrt3.v
theories/P_sqrt4.v
theories/Prop_sqrt.v
theories/SpecHex.v
theories/M_hex.v
theories/P_hex.v
theories/P_hex2.v
theories/P_hex3.v
theories/P_hex4.v
theories/P_hex5.v
theories/P_hex6.v
theories/P_hex7.v
theories/P_hex8.v
theories/Prop_hex.v
theories/M_elib.v
theories/M_rempio2.v
theories/M_trig.v
theories/M_atrig.v
theories/M_exp.v
theories/M_log.v
theories/M_pow.v
theories/M_erf.v
theories/M_gamma.v
theories/M_bessel.v
theories/SpecElem.v
theories/P_elem.v
theories/P_elem2.v
theories/P_ival.v
theories/P_ival2.v
theories/P_tot.v
theories/Prop_hypot.v
theories/P_exp.v
theories/P_log.v
theories/P_atrig.v
theories/P_erf.v
theories/SpecAnnexF.v
theories/P_lit.v
theories/P_nan.v
theories/P_dom.v
theories/P_pi.v
theories/P_acosh.v
theories/Prop_special.v
theories/SpecPow.v
theories/P_pow.v
theories/Prop_pow.v
theories/P_exp10.v
theories/Prop_exp10.v
theories/P_cf.v
theories/P_fx.v
theories/P_rpl.v
theories/P_rpl2.v
theories/P_rpl3.v
theories/P_rpl4.v
theories/P_rem.v
theories/Prop_rempio2.v
theories/M_helper.v
theories/Prop_helper.v
theories/P_sym.v
theories/SpecSym.v
theories/P_sym2.v
theories/P_sym3.v
theories/P_bessel.v
theories/P_sym4.v
theories/Prop_sym.v
theories/P_err.v
theories/P_sc.v
theories/P_pibound.v
theories/P_apx.v
theories/P_poly.v
theories/P_taylor.v
theories/P_poly2.v
theories/P_poly3.v
theories/SpecAcc.v
theories/P_acc.v
theories/P_kerf.v
theories/P_medf.v
theories/P_kerf2.v
theories/P_smallf.v
theories/P_pitab.v
theories/P_rplf.v
theories/P_trigf.v
theories/P_tanf.v
theories/P_tanf2.v
theories/P_symf.v
theories/Prop_sincos.v
theories/Prop_acc.v
theories/Prop_red.v
theories/SpecRoot.v
theories/P_rel.v
theories/P_cbrtf.v
theories/P_cbrt.v
theories/P_cbrt2.v
theories/P_cbrt3.v
theories/Prop_cbrt.v
theories/P_red64.v
theories/P_red64b.v
theories/P_red64c.v
theories/P_rpl5.v
theories/P_red64d.v
theories/P_ksc.v
theories/P_ker64.v
theories/P_ker64c.v
theories/P_trig64.v
theories/Prop_acc64.v
theories/P_sym64.v
theories/P_tan64a.v
theories/P_tan64.v
theories/P_tan64r.v
theories/P_tan64b.v
theories/P_tan64o.v
theories/SpecUlp.v
theories/P_ulp.v
theories/P_tan64s.v
theories/P_tan64c.v
theories/P_tan64d.v
theories/P_tan64t.v
theories/P_sym64t.v
theories/Prop_sym64.v
theories/Prop_tan64.v
theories/M_jn.v
theories/SpecBes.v
theories/P_jn.v
theories/P_jn2.v
theories/P_jn3.v
theories/P_jn4.v
theories/Prop_jn.v
theories/SpecTotal.v
theories/SpecGamma.v
theories/P_powt.v
theories/P_powt2.v
theories/P_powt3.v
theories/P_powt4.v
theories/P_powt5.v
theories/P_powt6.v
theories/P_powt7.v
theories/P_powt8.v
theories/P_powt9.v
theories/P_powt10.v
theories/P_powt11.v
theories/P_powt12.v
theories/P_gam.v
theories/P_gam2.v
theories/P_gam3.v
theories/P_gam4.v
theories/P_gam5.v
theories/P_gam6.v
theories/Prop_total.v
theories/Prop_gamma.v
theories/SpecExp.v
theories/P_expa1.v
theories/P_expa2.v
theories/P_expa3.v
theories/P_expa4.v
theories/P_expa5.v
theories/P_expa6.v
theories/P_expa7.v
theories/P_expa8.v
theories/P_expa9.v
theories/P_expa10.v
theories/P_expa11.v
theories/P_expa12.v
theories/Prop_expacc.v
theories/SpecLog.v
theories/P_lga1.v
theories/P_lga2.v
theories/P_lga3.v
theories/P_lga4.v
theories/P_lga5.v
theories/P_lga6.v
theories/P_lga7.v
theories/P_lgb3.v
theories/P_lgb4.v
theories/P_lgb5.v
theories/P_lgb6.v
theories/P_lgb7.v
theories/Prop_logacc.v
theories/SpecLog2.v
theories/P_l2a1.v
theories/P_l2a2.v
theories/P_l2a3.v
theories/P_l2a4.v
theories/P_l2a5.v
theories/P_l2a6.v
theories/P_l2a7.v
theories/P_l2a8.v
theories/P_l2a9.v
theories/P_l2b2.v
theories/P_l2b3.v
theories/P_l2b5.v
theories/P_l2b6.v
theories/P_l2b7.v
theories/P_l2b8.v
theories/P_l2b9.v
theories/P_l2c1.v
theories/P_l2c2.v
theories/P_l2c3.v
theories/P_l2c4.v
theories/SpecExact2.v
theories/Prop_log210.v
theories/Prop_pow2.v
theories/SpecLog1p.v
theories/P_l1a1.v
theories/P_l1b1.v
theories/P_l1c1.v
theories/P_l1a2.v
theories/P_l1a3.v
theories/P_l1b2.v
theories/P_l1b3.v
theories/Prop_log1p.v
theories/SpecHyp.v
theories/P_hy1.v
theories/P_hy2.v
theories/P_hy3.v
theories/P_hy4.v
theories/P_hy5.v
theories/P_hy6.v
theories/Prop_hyp.v
theories/SpecExpm1.v
theories/P_em1.v
theories/P_em2.v
theories/P_em3.v
theories/P_em4.v
theories/P_em5.v
theories/P_em6.v
theories/P_em7.v
theories/P_em8.v
theories/P_em9.v
theories/Prop_expm1.v
theories/SpecHyp2.v
theories/P_sh1.v
theories/P_sh2.v
theories/P_sh3.v
theories/P_sh4.v
theories/P_sh5.v
theories/P_sh6.v
theories/P_sh7.v
theories/Prop_sinh.v
theories/SpecHypot2.v
theories/P_hp1.v
theories/P_hp2.v
theories/P_hp3.v
theories/P_hp4.v
theories/P_hp5.v
theories/Prop_hypotacc.v
theories/SpecHypot3.v
theories/P_hp6.v
theories/P_hp7.v
theories/Prop_hypotge.v
