-Q theories Verif
theories/Str.v
theories/Xml.v
theories/XPath.v
theories/Utils.v
theories/Base.v
theories/Tables.v
theories/Cybox.v
theories/Stix.v
theories/Ramrod.v
theories/Cli.v
theories/UpdateNs.v
theories/Spec.v
theories/Lib.v
theories/Frame.v
theories/Api.v
theories/Samples.v
theories/PropsApi.v
theories/Versions.v
theories/NoFail.v
theories/PropsVersions.v
theories/SpecNs.v
theories/Scripts.v
theories/Merged.v
theories/PropsScripts.v
theories/SpecDoc.v
theories/SpecPass.v
theories/Refine.v
theories/RefineBase.v
theories/RefineTrans.v
theories/RefineLists.v
theories/SpecStep.v
theories/SpecRead.v
theories/Reading.v
theories/RefineSteps.v
theories/SpecCheck.v
theories/RefineCheck.v
theories/SpecClean.v
theories/RefineClean.v
theories/SpecUpdate.v
theories/Relabel.v
theories/RefineUpdate.v
theories/Updates.v
theories/SpecReport.v
theories/Reports.v
theories/UpdateFacts.v
theories/PropsUpdate.v
theories/SpecTrace.v
theories/Natural.v
theories/Trace.v
theories/SpecField.v
theories/Fields.v
theories/Carried.v
theories/Follow.v
theories/Vocab.v
theories/Worked.v
theories/Marks.v
theories/PropsFields.v
theories/SpecLocation.v
theories/Root.v
theories/Located.v
theories/Declared.v
theories/PropsContent.v
theories/SpecName.v
theories/Moved.v
theories/Codec.v
theories/ListText.v
theories/PropsNames.v
theories/Optional.v
theories/SpecFault.v
theories/PropsOptional.v
theories/Faults.v
theories/Forced.v
theories/PropsFaults.v
theories/Kept.v
theories/SpecCli.v
theories/Terminal.v
theories/Output.v
theories/PropsCli.v
theories/SpecCleaned.v
theories/Cleaned.v
theories/Emptied.v
theories/PropsClean.v
theories/SpecChain.v
theories/Chained.v
theories/PropsChain.v
theories/SpecTranslate.v
theories/SpecIds.v
theories/Translated.v
theories/Ids.v
theories/Refs.v
theories/PropsTranslate.v
theories/SpecCount.v
theories/Tally.v
theories/PropsIds.v
theories/PropsCount.v
theories/SpecText.v
theories/Text.v
theories/Words.v
theories/PropsText.v
theories/Again.v
theories/PropsAgain.v
theories/Plain.v
theories/Sound.v
theories/PropsSound.v
theories/Refused.v
theories/SpecMeaning.v
theories/Meaning.v
theories/PropsMeaning.v
theories/SpecCurrent.v
theories/Current.v
theories/PropsCurrent.v
theories/SpecOptions.v
theories/Switches.v
theories/PropsOptions.v
theories/SpecEmbed.v
theories/Embedded.v
theories/PropsEmbed.v
theories/Register.v
theories/SpecRegister.v
theories/Registered.v
theories/PropsRegister.v
theories/SpecOrder.v
theories/Order.v
theories/PropsOrder.v
theories/SpecHelper.v
theories/Helpers.v
theories/PropsHelper.v
theories/SpecContract.v
theories/Contract.v
theories/PropsContract.v
theories/Offered.v
theories/SpecTool.v
theories/Tools.v
theories/PropsTool.v
theories/SpecRounds.v
theories/Rounds.v
theories/PropsRounds.v
theories/SpecSession.v
theories/Sessions.v
theories/PropsSession.v
theories/Steps.v
theories/Stepwise.v
theories/StepRun.v
theories/SpecThreads.v
theories/Blind.v
theories/Owned.v
theories/Threads.v
theories/PropsThreads.v
theories/IdFunc.v
theories/SpecIdFunc.v
theories/IdFuncs.v
theories/PropsIdFunc.v
theories/Disk.v
theories/SpecDisk.v
theories/Disks.v
theories/PropsDisk.v
theories/DiskNs.v
theories/SpecDiskNs.v
theories/DisksNs.v
theories/PropsDiskNs.v
theories/Transfer.v
theories/SpecTransfer.v
theories/Transfers.v
theories/PropsTransfer.v
theories/Jobs.v
theories/SpecJobs.v
theories/SideBySide.v
theories/PropsJobs.v
theories/SpecWhole.v
theories/Called.v
theories/Told.v
theories/Whole.v
theories/PropsWhole.v
