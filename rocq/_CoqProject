-Q theories Verif
theories/Model/Aabb.v
theories/Model/Bvh.v
theories/Model/BvhSplit.v
theories/Model/Color.v
theories/Model/ColorLinear.v
theories/Model/Directions.v
theories/Model/Flags.v
theories/Model/FloatVec.v
theories/Model/Geometry.v
theories/Model/Guards.v
theories/Model/Hex.v
theories/Model/Ibl.v
theories/Model/IntVec.v
theories/Model/LaneAccess.v
theories/Model/Lanes.v
theories/Model/LineMore.v
theories/Model/Matrix.v
theories/Model/MatrixMore.v
theories/Model/Numeric.v
theories/Model/Outcome.v
theories/Model/Packed.v
theories/Model/QuatF32.v
theories/Model/Quaternion.v
theories/Model/Scalar.v
theories/Model/Setters.v
theories/Model/Sh.v
theories/Model/Shapes.v
theories/Model/Simd.v
theories/Model/SimdInt.v
theories/Model/Text.v
theories/Model/Transc.v
theories/Model/Transform.v
theories/Model/Trig.v
theories/Model/Vec.v
theories/Model/Version.v
theories/Proofs/AabbMore.v
theories/Proofs/AabbOrder.v
theories/Proofs/AabbWitness.v
theories/Proofs/AccessProofs.v
theories/Proofs/AngleErr.v
theories/Proofs/Approx.v
theories/Proofs/ArrayLemmas.v
theories/Proofs/BaryErr.v
theories/Proofs/BitLemmas.v
theories/Proofs/BitReverse.v
theories/Proofs/BoxErr.v
theories/Proofs/BvhArrays.v
theories/Proofs/BvhBoxes.v
theories/Proofs/BvhBuild.v
theories/Proofs/BvhDecide.v
theories/Proofs/BvhFrustum.v
theories/Proofs/BvhLoops.v
theories/Proofs/BvhResults.v
theories/Proofs/BvhTree.v
theories/Proofs/CameraProofs.v
theories/Proofs/ChainProofs.v
theories/Proofs/ClosestErr.v
theories/Proofs/ClosestWitness.v
theories/Proofs/ColorNumber.v
theories/Proofs/ColorProofs.v
theories/Proofs/CubeErr.v
theories/Proofs/CullProofs.v
theories/Proofs/CullWitness.v
theories/Proofs/DepthProofs.v
theories/Proofs/DeringProofs.v
theories/Proofs/DirProofs.v
theories/Proofs/EqualProofs.v
theories/Proofs/Euclid.v
theories/Proofs/ExpProofs.v
theories/Proofs/F32Err.v
theories/Proofs/F32Round.v
theories/Proofs/FlagsProofs.v
theories/Proofs/FloatConv.v
theories/Proofs/FloatVecProofs.v
theories/Proofs/Fm2.v
theories/Proofs/Frustum.v
theories/Proofs/GainProofs.v
theories/Proofs/GeometryProofs.v
theories/Proofs/GeometryWitness.v
theories/Proofs/GgxErr.v
theories/Proofs/GuardProofs.v
theories/Proofs/HarmonicProofs.v
theories/Proofs/HexParse.v
theories/Proofs/HexProofs.v
theories/Proofs/IblProofs.v
theories/Proofs/IntArith.v
theories/Proofs/IntConv.v
theories/Proofs/IntOrder.v
theories/Proofs/IntProofs.v
theories/Proofs/IntWitness.v
theories/Proofs/InvErr.v
theories/Proofs/InvUse.v
theories/Proofs/InvWitness.v
theories/Proofs/LaneProofs.v
theories/Proofs/LerpProofs.v
theories/Proofs/LineMoreProofs.v
theories/Proofs/LinearProofs.v
theories/Proofs/LogProofs.v
theories/Proofs/MatErrProofs.v
theories/Proofs/MatMoreProofs.v
theories/Proofs/MatrixInverse.v
theories/Proofs/MatrixProofs.v
theories/Proofs/MipProofs.v
theories/Proofs/ModelErr.v
theories/Proofs/ModelWitness.v
theories/Proofs/MoreFacts.v
theories/Proofs/NetProofs.v
theories/Proofs/NormProofs.v
theories/Proofs/NormWitness.v
theories/Proofs/NumericProofs.v
theories/Proofs/OrdScalar.v
theories/Proofs/OrthoErr.v
theories/Proofs/PackedHistory.v
theories/Proofs/PackedProofs.v
theories/Proofs/PiBounds.v
theories/Proofs/PowProofs.v
theories/Proofs/ProjProofs.v
theories/Proofs/QuatErr.v
theories/Proofs/QuatMat.v
theories/Proofs/QuatMatTurn.v
theories/Proofs/QuatProofs.v
theories/Proofs/QuatRot.v
theories/Proofs/QuatTrig.v
theories/Proofs/QuatWitness.v
theories/Proofs/RayErr.v
theories/Proofs/RayProofs.v
theories/Proofs/RealLits.v
theories/Proofs/RealTrans.v
theories/Proofs/RigidErr.v
theories/Proofs/SahCosts.v
theories/Proofs/SahProofs.v
theories/Proofs/SahWitness.v
theories/Proofs/SampleErr.v
theories/Proofs/Sat.v
theories/Proofs/SatErr.v
theories/Proofs/SatSeparate.v
theories/Proofs/SetterProofs.v
theories/Proofs/ShErr.v
theories/Proofs/ShLoop.v
theories/Proofs/ShMin.v
theories/Proofs/ShProofs.v
theories/Proofs/ShaderErr.v
theories/Proofs/ShapeProofs.v
theories/Proofs/SignedProofs.v
theories/Proofs/SinCosProofs.v
theories/Proofs/SolidAngle.v
theories/Proofs/SolidErr.v
theories/Proofs/SolidSum.v
theories/Proofs/SphereErr.v
theories/Proofs/SphereProofs.v
theories/Proofs/SrgbProofs.v
theories/Proofs/TextMore.v
theories/Proofs/TextProofs.v
theories/Proofs/TranscWitness.v
theories/Proofs/TransformProofs.v
theories/Proofs/TransformWitness.v
theories/Proofs/TriErr.v
theories/Proofs/TriangleProofs.v
theories/Proofs/VecProofs.v
theories/Proofs/VersionProofs.v
theories/Proofs/ViewErr.v
theories/Proofs/ViewWitness.v
theories/Proofs/WindowErr.v
theories/Proofs/YxyErr.v
theories/Proofs/YxyRgb.v
theories/Props/AabbProps.v
theories/Props/AccessProps.v
theories/Props/AngleProps.v
theories/Props/BoxErrProps.v
theories/Props/BvhProps.v
theories/Props/ClosestErrProps.v
theories/Props/ColorProps.v
theories/Props/CubeProps.v
theories/Props/CullProps.v
theories/Props/DepthProps.v
theories/Props/DirProps.v
theories/Props/FloatVecProps.v
theories/Props/GeometryProps.v
theories/Props/GgxProps.v
theories/Props/GuardProps.v
theories/Props/IblProps.v
theories/Props/IntProps.v
theories/Props/InvErrProps.v
theories/Props/LinearProps.v
theories/Props/MatErrProps.v
theories/Props/MatMoreProps.v
theories/Props/MatrixProps.v
theories/Props/ModelErrProps.v
theories/Props/NetProps.v
theories/Props/NormProps.v
theories/Props/NumericProps.v
theories/Props/OrthoProps.v
theories/Props/QuatErrProps.v
theories/Props/QuatMatProps.v
theories/Props/RayErrProps.v
theories/Props/RigidProps.v
theories/Props/SahProps.v
theories/Props/SampleProps.v
theories/Props/SatErrProps.v
theories/Props/SetterProps.v
theories/Props/ShErrProps.v
theories/Props/ShMinProps.v
theories/Props/ShProps.v
theories/Props/ShaderProps.v
theories/Props/ShapeProps.v
theories/Props/SignedProps.v
theories/Props/SolidProps.v
theories/Props/SolidSumProps.v
theories/Props/SphereErrProps.v
theories/Props/TextProps.v
theories/Props/ToStringProps.v
theories/Props/TranscProps.v
theories/Props/TransformProps.v
theories/Props/TriErrProps.v
theories/Props/VectorProps.v
theories/Props/ViewProps.v
theories/Props/WindowProps.v
theories/Props/YxyProps.v
theories/Spec/AccessSpec.v
theories/Spec/AngleSpec.v
theories/Spec/BoxErrSpec.v
theories/Spec/BvhGeomSpec.v
theories/Spec/BvhSpec.v
theories/Spec/ClosestErrSpec.v
theories/Spec/ColorSpec.v
theories/Spec/CubeSpec.v
theories/Spec/CullSpec.v
theories/Spec/DepthSpec.v
theories/Spec/DirSpec.v
theories/Spec/EuclidSpec.v
theories/Spec/FlagsSpec.v
theories/Spec/FloatSpec.v
theories/Spec/GeomSpec.v
theories/Spec/GgxSpec.v
theories/Spec/GuardSpec.v
theories/Spec/HexParseSpec.v
theories/Spec/HexSpec.v
theories/Spec/IblSpec.v
theories/Spec/IntSpec.v
theories/Spec/InvErrSpec.v
theories/Spec/LaneSpec.v
theories/Spec/LinearSpec.v
theories/Spec/MatErrSpec.v
theories/Spec/MatMoreSpec.v
theories/Spec/MatSpec.v
theories/Spec/ModelErrSpec.v
theories/Spec/NetSpec.v
theories/Spec/NormSpec.v
theories/Spec/NumericSpec.v
theories/Spec/OrderSpec.v
theories/Spec/OrthoSpec.v
theories/Spec/PackedSpec.v
theories/Spec/ProjSpec.v
theories/Spec/QuatErrSpec.v
theories/Spec/QuatMatSpec.v
theories/Spec/RayErrSpec.v
theories/Spec/RaySpec.v
theories/Spec/RigidSpec.v
theories/Spec/RotSpec.v
theories/Spec/SahSpec.v
theories/Spec/SatErrSpec.v
theories/Spec/ShMinSpec.v
theories/Spec/ShSpec.v
theories/Spec/ShaderSpec.v
theories/Spec/ShapeSpec.v
theories/Spec/SolidSpec.v
theories/Spec/SphereSpec.v
theories/Spec/TextSpec.v
theories/Spec/TriErrSpec.v
theories/Spec/VecSpec.v
theories/Spec/VersionSpec.v
theories/Spec/ViewSpec.v
theories/Spec/WindowSpec.v
theories/Spec/YxySpec.v
