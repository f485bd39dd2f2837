-Q theories Verif
theories/Base.v
theories/Fld.v
theories/FldInst.v
theories/Particle.v
theories/ParticleSpec.v
theories/ParticleThm.v
theories/Index.v
theories/IndexThm.v
theories/Phase.v
theories/PhaseSpec.v
theories/PhaseThm.v
theories/Properties01.v
theories/Properties02.v
theories/Det.v
theories/DetSpec.v
theories/DetThm.v
theories/Arcs.v
theories/ArcsSpec.v
theories/ArcsThm.v
theories/Compute.v
theories/ComputeSpec.v
theories/ComputeThm.v
theories/ComputeThm2.v
theories/ComputeThm3.v
theories/ComputeThm4.v
theories/ComputeThm5.v
theories/ToField.v
theories/ToFieldThm.v
theories/Properties03.v
theories/GramThm.v
theories/ModP.v
theories/Properties04.v
theories/Symm.v
theories/SymmSpec.v
theories/SymmThm.v
theories/Properties05.v
theories/Cluster.v
theories/ClusterSpec.v
theories/ClusterThm.v
theories/Str.v
theories/Masses.v
theories/MassesSpec.v
theories/MassesThm.v
theories/Properties06.v
theories/Properties07.v
theories/Tr5.v
theories/SetOne.v
theories/SetSpec.v
theories/SetThm.v
theories/SetThm2.v
theories/SetThm3.v
theories/SetThm4.v
theories/SetThm5.v
theories/SetThm6.v
theories/SetThm7.v
theories/SetThm8.v
theories/SetThm9.v
theories/SetPair.v
theories/Variety.v
theories/SetPairSpec.v
theories/SetPairThm.v
theories/VarietyThm.v
theories/Properties08.v
theories/Sort.v
theories/SortThm.v
theories/Twistor.v
theories/TwistorThm.v
theories/Save.v
theories/SaveSpec.v
theories/SaveThm.v
theories/Properties09.v
theories/Polar.v
theories/PolarSpec.v
theories/PolarThm.v
theories/Slice.v
theories/SliceThm.v
theories/Properties10.v
theories/Gen.v
theories/GenSpec.v
theories/GenThm.v
theories/GenThm2.v
theories/GenFull.v
theories/Properties11.v
theories/GenThm3.v
theories/Cache.v
theories/CacheSpec.v
theories/CacheThm.v
theories/Properties12.v
theories/Regex.v
theories/RegexThm.v
theories/Parse.v
theories/ParseSpec.v
theories/ParseChars.v
theories/ParseText.v
theories/ParseWrap.v
theories/ParseOpen.v
theories/ParseStars.v
theories/ParseLex.v
theories/ParseTree.v
theories/ParseFold.v
theories/ParseEval.v
theories/ParseVary.v
theories/Properties13.v
theories/Ideal.v
theories/IdealSpec.v
theories/IdealThm.v
theories/IdealThm2.v
theories/Properties14.v
theories/Heap.v
theories/HeapSpec.v
theories/HeapThm.v
theories/Properties15.v
theories/Text.v
theories/TextSpec.v
theories/TextThm.v
theories/TextThm2.v
theories/TextThm3.v
theories/TextThm4.v
theories/TextThm5.v
theories/TextThm6.v
theories/ExprSpec.v
theories/TextThm7.v
theories/Properties16.v
theories/RatPoly.v
theories/RatFun.v
theories/Analytic.v
theories/AnalyticSpec.v
theories/AnalyticThm.v
theories/AnalyticThm2.v
theories/AnalyticThm3.v
theories/AnalyticThm4.v
theories/Properties17.v
theories/FourSpec.v
theories/FourThm.v
theories/Properties18.v
theories/RestrictSpec.v
theories/RestrictThm.v
theories/Properties19.v
theories/SetPairMore.v
theories/SetMoreSpec.v
theories/SetMoreThm.v
theories/SetMoreThm2.v
theories/SetMoreThm3.v
theories/SetMoreThm4.v
theories/SetMoreThm5.v
theories/SetMoreThm6.v
theories/Properties20.v
theories/Class.v
theories/ClassSpec.v
theories/ClassThm.v
theories/ClassThm2.v
theories/Member.v
theories/MemberSpec.v
theories/MemberThm.v
theories/Properties21.v
theories/ClosedText.v
theories/Closed.v
theories/ClosedSpec.v
theories/ClosedThm.v
theories/ClosedThm2.v
theories/ClosedThm3.v
theories/Properties22.v
theories/Properties23.v
theories/Tensor.v
theories/TensorSpec.v
theories/TensorThm.v
theories/TensorText.v
theories/TensorTree.v
theories/TensorEval.v
theories/Properties24.v
theories/TensorChain.v
theories/TensorChainThm.v
theories/TensorMixed.v
theories/TensorMixedThm.v
theories/Properties25.v
theories/Reduce.v
theories/ReduceSpec.v
theories/ReduceThm.v
theories/ReduceWide.v
theories/ReduceInst.v
theories/Consist.v
theories/ConsistSpec.v
theories/ConsistThm.v
theories/Points.v
theories/PointsThm.v
theories/Properties26.v
theories/TensorSum.v
theories/TensorSumText.v
theories/TensorSumTree.v
theories/TensorSumSpec.v
theories/TensorSumThm.v
theories/Properties27.v
theories/Mathematica.v
theories/MathematicaSpec.v
theories/MathematicaThm.v
theories/ThreeKs.v
theories/ThreeKsSpec.v
theories/ThreeKsThm.v
theories/Properties28.v
theories/Properties29.v
theories/OuterText.v
theories/OuterTree.v
theories/OuterSpec.v
theories/OuterThm.v
theories/Properties30.v
theories/MpcRandom.v
theories/MpcRandomSpec.v
theories/MpcRandomThm.v
theories/MpcPoint.v
theories/MpcPointThm.v
theories/MpcInst.v
theories/Properties31.v
theories/Derived.v
theories/DerivedSpec.v
theories/DerivedThm.v
theories/Properties32.v
theories/MpcSignSpec.v
theories/MpcSignThm.v
theories/Properties33.v
theories/SubsSpec.v
theories/SubsThm.v
theories/Properties34.v
theories/CutSpec.v
theories/CutThm.v
theories/PartSubs.v
theories/PartSubsSpec.v
theories/PartSubsThm.v
theories/Properties35.v
theories/StableSpec.v
theories/StableThm.v
theories/Properties36.v
theories/Restore3Thm.v
theories/Properties37.v
theories/MassNameSpec.v
theories/MassNameThm.v
theories/Properties38.v
