-Q theories Verif
theories/ArithModel.v
theories/ChgcarModel.v
theories/ChgcarProofs.v
theories/ChgcarSpec.v
theories/DoscarModel.v
theories/DoscarProofs.v
theories/DoscarSpec.v
theories/EigenvalModel.v
theories/EigenvalProofs.v
theories/EigenvalSpec.v
theories/IncarErrors.v
theories/IncarModel.v
theories/IncarProofs.v
theories/IncarRoundTrip.v
theories/IncarSpec.v
theories/IncarTags.v
theories/IncarTheorems.v
theories/IncarTokens.v
theories/IoModel.v
theories/IoProofs.v
theories/IoVasprun.v
theories/KpointsCodes.v
theories/KpointsEdits.v
theories/KpointsHistory.v
theories/KpointsLine.v
theories/KpointsModel.v
theories/KpointsModes.v
theories/KpointsProofs.v
theories/KpointsRoundTrip.v
theories/KpointsSpec.v
theories/LatticeModel.v
theories/LineModel.v
theories/OutcarMatch.v
theories/OutcarModel.v
theories/OutcarProofs.v
theories/OutcarScan.v
theories/OutcarSpec.v
theories/OutcarStatus.v
theories/OutcarTables.v
theories/OutcarTimings.v
theories/PoscarErrors.v
theories/PoscarGroup.v
theories/PoscarModel.v
theories/PoscarRead.v
theories/PoscarRoundTrip.v
theories/PoscarSpec.v
theories/PoscarTheorems.v
theories/PotcarModel.v
theories/PotcarProofs.v
theories/PotcarSpec.v
theories/Props_BadNumbers.v
theories/Props_BadPoscar.v
theories/Props_BadTables.v
theories/Props_Blanks.v
theories/Props_Chgcar.v
theories/Props_ChgcarTotal.v
theories/Props_Doscar.v
theories/Props_DoscarTotal.v
theories/Props_Eigenval.v
theories/Props_EigenvalTotal.v
theories/Props_Endings.v
theories/Props_Incar.v
theories/Props_IncarDigits.v
theories/Props_Io.v
theories/Props_IoCrash.v
theories/Props_IoIncar.v
theories/Props_IoKpoints.v
theories/Props_IoPoscar.v
theories/Props_IoVasprun.v
theories/Props_Kpoints.v
theories/Props_KpointsDict.v
theories/Props_KpointsDigits.v
theories/Props_KpointsStable.v
theories/Props_KpointsTotal.v
theories/Props_Lattice.v
theories/Props_Outcar.v
theories/Props_OutcarTotal.v
theories/Props_Poscar.v
theories/Props_PoscarDict.v
theories/Props_PoscarDigits.v
theories/Props_PoscarTotal.v
theories/Props_PoscarWrite.v
theories/Props_Potcar.v
theories/Props_PotcarTotal.v
theories/Props_Stable.v
theories/Props_Stream.v
theories/Props_Utils.v
theories/Props_Vasprun.v
theories/Props_VasprunAgree.v
theories/Props_VasprunAgreeSample.v
theories/Props_VasprunData.v
theories/Props_VasprunData2.v
theories/Props_VasprunDiffer.v
theories/Props_VasprunEventExits.v
theories/Props_VasprunExits.v
theories/Props_VasprunFile.v
theories/Props_VasprunMore.v
theories/Props_VasprunSample.v
theories/PyBase.v
theories/PyFmtDigits.v
theories/PyFmtLemmas.v
theories/PyLines.v
theories/PyNum.v
theories/PyNumLemmas.v
theories/PyShort.v
theories/PyStrLemmas.v
theories/PyToken.v
theories/StreamConfig.v
theories/StreamModel.v
theories/StreamProofs.v
theories/UtilsModel.v
theories/VasprunAccess.v
theories/VasprunAgree.v
theories/VasprunAgree2.v
theories/VasprunAgree3.v
theories/VasprunCalc.v
theories/VasprunDoc.v
theories/VasprunElems.v
theories/VasprunElems2.v
theories/VasprunElems3.v
theories/VasprunElems4.v
theories/VasprunElems5.v
theories/VasprunElems6.v
theories/VasprunElems7.v
theories/VasprunElems8.v
theories/VasprunEnergies.v
theories/VasprunEvents.v
theories/VasprunHead.v
theories/VasprunHead2.v
theories/VasprunHead3.v
theories/VasprunModel.v
theories/VasprunPaths.v
theories/VasprunResults.v
theories/VasprunRun.v
theories/VasprunSpec.v
theories/VasprunSteps.v
theories/VasprunTables.v
theories/VasprunTree.v
theories/VasprunTypes.v
theories/VasprunXml.v
