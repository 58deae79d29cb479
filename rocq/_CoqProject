-Q theories Verif
theories/Base/Num.v
theories/Base/ListFacts.v
theories/Base/Pointwise.v
theories/Base/XReal.v
theories/Base/XTac.v
theories/Base/XArith.v
theories/Base/QOps.v
theories/Base/Ieee.v
theories/Model/Misc.v
theories/Model/Common.v
theories/Model/LiquidIce.v
theories/Model/BlendedRain.v
theories/Model/Tropical.v
theories/Model/Dsd.v
theories/Model/Tables.v
theories/Model/Beta.v
theories/Model/TTraps.v
theories/Model/Hid.v
theories/Model/Melt.v
theories/Spec/MiscSpec.v
theories/Proofs/MiscProofs.v
theories/Spec/RainSpec.v
theories/Spec/LiquidIceSpec.v
theories/Spec/DsdSpec.v
theories/Spec/TrapSpec.v
theories/Spec/HidSpec.v
theories/Spec/MeltSpec.v
theories/Proofs/RainProofs.v
theories/Proofs/RainReal.v
theories/Proofs/LiquidIceProofs.v
theories/Proofs/FreezingProofs.v
theories/Proofs/DsdProofs.v
theories/Proofs/TrapProofs.v
theories/Proofs/HidProofs.v
theories/Proofs/BetaProofs.v
theories/Proofs/SummerProofs.v
theories/Proofs/SummerReal.v
theories/Proofs/CoreProofs.v
theories/Proofs/MeltProofs.v
theories/Properties/P01_Misc.v
theories/Properties/P02_Rain.v
theories/Properties/P03_RainReal.v
theories/Properties/P04_LiquidIce.v
theories/Properties/P05_Dsd.v
theories/Properties/P06_Traps.v
theories/Properties/P07_Beta.v
theories/Properties/P08_Summer.v
theories/Properties/P09_SummerScores.v
theories/Properties/P10_SelfClass.v
theories/Properties/P11_Winter.v
theories/Properties/P12_Melt.v
theories/Properties/P13_RunWinter.v
theories/Model/Kdp.v
theories/Model/Fundamentals.v
theories/Spec/KdpSpec.v
theories/Proofs/KdpReal.v
theories/Proofs/KdpProofs.v
theories/Proofs/KdpFilter.v
theories/Properties/P14_Kdp.v
theories/Properties/P15_KdpFilter.v
theories/Properties/P16_KdpDispatch.v
theories/Spec/FundSpec.v
theories/Proofs/FundReal.v
theories/Properties/P17_Units.v
theories/Properties/P18_System.v
theories/Properties/P19_Variables.v
theories/Model/KdpPy.v
theories/Model/Plot.v
theories/Model/Weights.v
theories/Proofs/KdpPyProofs.v
theories/Proofs/KdpPyReal.v
theories/Properties/P20_KdpPython.v
theories/Spec/RainDefaultSpec.v
theories/Properties/P21_RainDefaults.v
theories/Properties/P22_RainNaN.v
theories/Properties/P23_TrapHelpers.v
theories/Properties/P24_DefaultScores.v
theories/Properties/P25_KdpFir.v
theories/Properties/P26_Formulas.v
theories/Properties/P27_Freezing.v
theories/Spec/IeeeSpec.v
theories/Spec/LibmSpec.v
theories/Base/RelErr.v
theories/Base/PosErr.v
theories/Spec/PlotSpec.v
theories/Spec/PowSpec.v
theories/Proofs/IeeeSign.v
theories/Proofs/IeeeScores.v
theories/Proofs/IeeeEnum.v
theories/Proofs/IeeeRain.v
theories/Properties/P28_Ieee.v
theories/Properties/P29_IeeeScores.v
theories/Properties/P30_IeeeKdp.v
theories/Properties/P31_KdpApi.v
theories/Properties/P32_Plot.v
theories/Properties/P33_IeeeUnits.v
theories/Properties/P34_IeeeRain.v
theories/Properties/P35_Verbose.v
theories/Properties/P36_ZdrNumber.v
theories/Properties/P37_Eighty.v
theories/Proofs/BetaErr.v
theories/Proofs/HidErr.v
theories/Properties/P38_IeeeClass.v
theories/Properties/P39_Weights.v
theories/Properties/P40_Closer.v
theories/Proofs/KdpAffine.v
theories/Properties/P41_KdpAffine.v
theories/Properties/P42_Symmetry.v
theories/Base/Mixed.v
theories/Proofs/SingleRain.v
theories/Properties/P43_Single.v
theories/Properties/P44_IceTest.v
theories/Properties/P45_DsdShape.v
theories/Properties/P46_Shapes.v
theories/Proofs/FillErr.v
theories/Proofs/AllFill.v
theories/Proofs/FundErr.v
theories/Properties/P47_Fill.v
theories/Properties/P48_AllFill.v
theories/Spec/EdgeSpec.v
theories/Proofs/EdgeRain.v
theories/Proofs/IceErr.v
theories/Proofs/MassErr.v
theories/Proofs/BlendErr.v
theories/Spec/PowIntSpec.v
theories/Proofs/DsdErr.v
theories/Proofs/DsdErr04.v
theories/Proofs/DsdErr04M1.v
theories/Proofs/TrapErr.v
theories/Properties/P49_FillRain.v
theories/Model/Masked.v
theories/Properties/P50_Masked.v
theories/Properties/P51_IeeeFund.v
theories/Properties/P52_IeeeIce.v
theories/Properties/P53_IeeeDsd.v
theories/Properties/P54_IeeeDsd04.v
theories/Properties/P55_IeeeTraps.v
