-Q theories Verif
theories/Base.v
theories/Utf8.v
theories/Value.v
theories/DataTypes.v
theories/Records.v
theories/Parser.v
theories/Wire.v
theories/BaseLemmas.v
theories/Utf8Lemmas.v
theories/DataTypesLemmas.v
theories/RecordsLemmas.v
theories/MethodLemmas.v
theories/SafetyLemmas.v
theories/Safety.v
theories/Grammar.v
theories/Heads.v
theories/Complete.v
theories/Sound.v
theories/Fuel.v
theories/Message.v
theories/Run.v
theories/Spec.v
theories/LemmasA.v
theories/Delimited.v
theories/LemmasB.v
theories/LemmasC.v
theories/PropsA.v
theories/Positions.v
theories/Reach.v
theories/LemmasD.v
theories/Trees.v
theories/TreeLemmas.v
theories/PropsB.v
theories/PropsC.v
theories/PropsD.v
theories/Size.v
theories/PropsE.v
theories/Calm.v
theories/PropsF.v
theories/Serde.v
theories/SerdeLemmas.v
theories/SerdeSpec.v
theories/PropsG.v
theories/PropsH.v
theories/PropsI.v
theories/Display.v
theories/ErrorKinds.v
theories/PropsJ.v
theories/Transmit.v
theories/PropsK.v
theories/Reading.v
theories/Made.v
theories/Widening.v
theories/PropsL.v
theories/Equality.v
theories/EqualitySpec.v
theories/PropsM.v
theories/Leftover.v
theories/PropsN.v
theories/Depth.v
theories/PropsV.v
theories/Ragged.v
theories/Panics.v
theories/PropsO.v
theories/PropsP.v
theories/Stops.v
theories/StopsLeaf.v
theories/Quits.v
theories/PropsQ.v
theories/PropsR.v
theories/Blame.v
theories/BlameLeaf.v
theories/Blames.v
theories/BlameMessage.v
theories/PropsS.v
theories/Work.v
theories/Worked.v
theories/WorkBound.v
theories/WorkLower.v
theories/WorkPrice.v
theories/PropsT.v
theories/Visitors.v
theories/VisitorSpec.v
theories/VisitorLemmas.v
theories/VisitorComplete.v
theories/VisitorEnds.v
theories/TargetWorld.v
theories/TargetLemmas.v
theories/PropsU.v
theories/Tokens.v
theories/TokenLemmas.v
theories/PropsW.v
theories/Blocks.v
theories/BlockLemmas.v
theories/Agree.v
theories/PropsX.v
theories/Relabel.v
theories/RelabelLemmas.v
theories/PropsY.v
theories/Received.v
theories/PropsZ.v
theories/Dates.v
theories/PropsZA.v
theories/PropsZB.v
theories/Nulls.v
theories/NullLemmas.v
theories/PropsZC.v
theories/Declared.v
theories/PropsZD.v
theories/Placement.v
theories/PlaceLemmas.v
theories/PropsZE.v
theories/Derive.v
theories/DeriveLemmas.v
theories/PropsZF.v
theories/EqualData.v
theories/EqualReads.v
theories/PropsZG.v
theories/PropsZH.v
theories/PropsZI.v
theories/Untyped.v
theories/UntypedLemmas.v
theories/PropsZJ.v
theories/ArrayForms.v
theories/FormLemmas.v
theories/PropsZK.v
theories/Rewriting.v
theories/PropsZL.v
theories/Parts.v
theories/PropsZM.v
theories/Frugal.v
theories/PropsZN.v
theories/Content.v
theories/ContentLemmas.v
theories/PropsZO.v
theories/RepoTests.v
theories/Assumptions.v
