-Q theories Verif
theories/Scalar.v
theories/SSE.v
theories/KernelGP.v
theories/KernelEI.v
theories/KernelSW.v
theories/KernelSW11.v
theories/KernelMat.v
theories/KernelExpLog.v
theories/ApiTypes.v
theories/ApiLin.v
theories/Api.v
theories/SpecPGA.v
theories/Embed.v
theories/AlgTac.v
theories/AlgGP.v
theories/AlgEI.v
theories/AlgSW.v
theories/FloR.v
theories/Closed.v
theories/AlgInv.v
theories/AlgNorm.v
theories/Motion.v
theories/Incid.v
theories/Ctors.v
theories/ExpLog.v
theories/Euler.v
theories/SpecGeom.v
theories/Vec.v
theories/Geom.v
theories/Props01.v
theories/Props02.v
theories/Props03.v
theories/Props04.v
theories/ExpSeries.v
theories/LogExp.v
theories/LogExp2.v
theories/Props05.v
theories/Batch.v
theories/Builds.v
theories/Quot.v
theories/Props06.v
theories/Glsl.v
theories/CApi.v
theories/MemIO.v
theories/Wf.v
theories/Props07.v
theories/SymMap.v
theories/SymPoly.v
theories/SymPolyFacts.v
theories/SymGA.v
theories/SymGAFacts.v
theories/SymMVFacts.v
theories/SymPGA.v
theories/Props08.v
theories/SymParse.v
theories/SymLexFacts.v
theories/SymParseFacts.v
theories/SymDen.v
theories/Props09.v
theories/Props10.v
theories/Float32.v
theories/FloatFacts.v
theories/ExprSyntax.v
theories/SpecMass.v
theories/FloatErr.v
theories/FloatMass.v
theories/FloatAbs.v
theories/FloatOps.v
theories/FloatNR.v
theories/FloatNorm.v
theories/FloatCmp.v
theories/FloatDegenerate.v
theories/FloatIdeal.v
theories/Props11.v
theories/Props12.v
theories/Replay.v
theories/DocCode.v
theories/Props13.v
theories/Props14.v
theories/SymSession.v
theories/Props15.v
theories/Props16.v
theories/ReplaySym.v
theories/Props17.v
theories/Props18.v
theories/FloatApx.v
theories/Props19.v
theories/Props20.v
theories/Props21.v
theories/Props22.v
theories/Props23.v
theories/Props24.v
theories/Asm.v
theories/Props25.v
theories/Props26.v
theories/Props27.v
theories/FloatLibm.v
theories/Props28.v
theories/Props29.v
theories/Props30.v
theories/Props31.v
theories/Props32.v
theories/Props33.v
theories/Props34.v
theories/Props35.v
theories/Props36.v
theories/Props37.v
theories/Props38.v
theories/Props39.v
theories/Props40.v
theories/Props41.v
theories/Props42.v
theories/Props43.v
theories/Props44.v
theories/Props45.v
theories/Props46.v
theories/Props47.v
theories/Props48.v
