-Q theories Verif

theories/Base.v
theories/Tables.v
theories/Spec.v
theories/NT.v
theories/Ext.v
theories/MInteger.v
theories/Ops.v
theories/MPrimality.v
theories/MTraits.v
theories/MFactor.v
theories/MSieve.v
theories/MIsPrime.v
theories/MPi.v
theories/MFactorize.v
theories/MRand.v
theories/PBase.v
theories/PTables.v
theories/PSieve.v
theories/PBuffer.v
theories/PropBuffer.v
theories/PInteger.v
theories/PropInteger.v
theories/POps.v
theories/PSprp.v
theories/PropSprp.v
theories/NTLegendre.v
theories/NTLucas.v
theories/PLucas.v
theories/PLucas2.v
theories/NTResidue.v
theories/PLucas3.v
theories/PropLucas.v
theories/PropMint.v
theories/NTProth.v
theories/PIsPrime.v
theories/PIsPrime2.v
theories/PropIsPrime.v
theories/PFactor.v
theories/PFactor2.v
theories/PHart.v
theories/PSqufof.v
theories/PropFactor.v
theories/PFactorize.v
theories/PFactorize2.v
theories/PFactorize3.v
theories/PropFactorize.v
theories/PFactorize4.v
theories/PDraws.v
theories/PMoebius.v
theories/PropFactorize2.v
theories/PropDraws.v
theories/PRho.v
theories/PropRho.v
theories/PNext.v
theories/PropNext.v
theories/PRand.v
theories/PropRand.v
theories/NTPhi.v
theories/PPi.v
theories/PPi2.v
theories/PropPi.v
theories/FArith.v
theories/MFloat.v
theories/PFloat.v
theories/PExact.v
theories/PSieveArr.v
theories/PFloatTab.v
theories/PGram.v
theories/PFloat2.v
theories/PropFloat.v
theories/MProb.v
theories/PProb.v
theories/PropProb.v
theories/MMint.v
theories/PropMint2.v
theories/SpecEx.v
theories/MExamples.v
theories/NTPock.v
theories/PLucky.v
theories/PDivisors.v
theories/PExamples.v
theories/PMersenne.v
theories/PropExamples.v
theories/PropSmall.v
theories/SpecGram.v
theories/PZeta.v
theories/PZetaTab.v
theories/PGramR.v
theories/PGram2.v
theories/PropGram.v
theories/PNthEst.v
theories/PropNthEst.v
theories/NTRabin.v
theories/PropRabin.v
theories/PropShares.v
theories/PDoc.v
theories/PropDoc.v
theories/NTRecip.v
theories/PFast.v
theories/PTests.v
theories/PCerts.v
theories/PropTests.v
theories/PropTests2.v
theories/PropTests3.v
theories/PropHier.v
theories/PropTests4.v
theories/PHart2.v
theories/PropHart.v
theories/NTBertrand.v
theories/PBertrand.v
theories/PropBertrand.v
theories/PPsp.v
theories/PPsp2.v
theories/PPsp3.v
theories/PPsp4.v
theories/PropWord.v
theories/PPiVals.v
theories/PropBigPi.v
theories/PropBounds.v
theories/PropTests5.v
theories/SpecCF.v
theories/PSqufof2.v
theories/PSqufof3.v
theories/PropSqufof.v
theories/PBig.v
theories/PropTests6.v
theories/PEstR.v
theories/PropEst.v
theories/NTMorrison.v
theories/PCerts2.v
theories/PropTests7.v
theories/PropCache.v
theories/PSearch.v
theories/PSearch2.v
theories/PropSearch.v
theories/PropLast.v
theories/MProfile.v
theories/PropProfile.v
