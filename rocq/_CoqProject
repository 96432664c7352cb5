-Q theories Verif
theories/Base.v
theories/CrcProofs.v
theories/CrcProps.v
theories/CrcSpec.v
theories/DahdiModel.v
theories/DahdiProofs.v
theories/DahdiProps.v
theories/DahdiRunProofs.v
theories/DahdiSpec.v
theories/DemuxHealProps.v
theories/DemuxModel.v
theories/DemuxProofs.v
theories/DemuxProps.v
theories/DemuxSpec.v
theories/DownDahdi.v
theories/DownE1d.v
theories/DownMisdn.v
theories/DrvModel.v
theories/DrvProps.v
theories/E1LinkProofs.v
theories/E1LinkProps.v
theories/E1Model.v
theories/E1MuxProps.v
theories/E1Proofs.v
theories/E1Props.v
theories/E1RawProps.v
theories/E1Spec.v
theories/E1TsProofs.v
theories/E1WakeProofs.v
theories/E1dEvtModel.v
theories/E1dEvtProps.v
theories/E1dModel.v
theories/E1dProofs.v
theories/E1dProps.v
theories/E1dRunProofs.v
theories/E1dSpec.v
theories/E2eDahdiProps.v
theories/E2eErProps.v
theories/E2eHealProps.v
theories/E2eIpaBts.v
theories/E2eIpaModel.v
theories/E2eIpaProofs.v
theories/E2eIpaProps.v
theories/E2eLineProps.v
theories/E2eMisdnProps.v
theories/E2eMuxProps.v
theories/E2eProps.v
theories/E2eSpec.v
theories/ErDecProofs.v
theories/ErDecProps.v
theories/ErDecProps64.v
theories/ErDecTop64.v
theories/ErModel.v
theories/ErProofs.v
theories/ErProofs64.v
theories/ErProps.v
theories/ErProps64.v
theories/ErSpec.v
theories/IpaLinkModel.v
theories/IpaLinkProofs.v
theories/IpaLinkProps.v
theories/IpaLinkSpec.v
theories/IpaModel.v
theories/IpaProofs.v
theories/IpaProps.v
theories/IpaSpec.v
theories/IpaStartModel.v
theories/IpaStartProps.v
theories/IpaWriteModel.v
theories/IpaWriteProps.v
theories/IpaccessBtsModel.v
theories/IpaccessBtsOrder.v
theories/IpaccessBtsProofs.v
theories/IpaccessBtsProps.v
theories/IpaccessBtsSpec.v
theories/IpaccessModel.v
theories/IpaccessProofs.v
theories/IpaccessProps.v
theories/KaPairModel.v
theories/KaPairProps.v
theories/KeepaliveModel.v
theories/KeepaliveProps.v
theories/LapdFreeModel.v
theories/LapdFreeProps.v
theories/LapdModel.v
theories/LapdProofs.v
theories/LapdProps.v
theories/LapdSpec.v
theories/MisdnDataProps.v
theories/MisdnFlightProps.v
theories/MisdnModel.v
theories/MisdnPoliteProofs.v
theories/MisdnProofs.v
theories/MisdnProps.v
theories/MisdnRunProofs.v
theories/MisdnSpec.v
theories/MuxProofs.v
theories/MuxProps.v
theories/OldTrauModel.v
theories/OldTrauProofs.v
theories/OldTrauProps.v
theories/OrtpCbProps.v
theories/OrtpModel.v
theories/OrtpProps.v
theories/OrtpQueryModel.v
theories/OrtpQueryProps.v
theories/OrtpQuerySpec.v
theories/OrtpSpec.v
theories/PaceModel.v
theories/PaceProps.v
theories/PaceSpec.v
theories/PcapModel.v
theories/PcapProps.v
theories/ProxyModel.v
theories/ProxyProofs.v
theories/ProxyProps.v
theories/ProxyVtyModel.v
theories/ProxyVtyMoreProps.v
theories/ProxyVtyNumProps.v
theories/ProxyVtyProofs.v
theories/ProxyVtyProps.v
theories/ProxyVtySpec.v
theories/RaaModel.v
theories/RaaProofs.v
theories/RaaProps.v
theories/Rs232Model.v
theories/Rs232Proofs.v
theories/Rs232Props.v
theories/Rs232Spec.v
theories/RtpBufProps.v
theories/RtpCsdProps.v
theories/RtpCtlProps.v
theories/RtpHrProps.v
theories/RtpModel.v
theories/RtpProofs.v
theories/RtpProps.v
theories/RtpSpec.v
theories/ShareModel.v
theories/ShareProps.v
theories/ShareSpec.v
theories/SigModel.v
theories/SigProofs.v
theories/SigProps.v
theories/SigSpec.v
theories/SignListModel.v
theories/SignListProofs.v
theories/SignListProps.v
theories/SignListSpec.v
theories/Spec.v
theories/SyncHealProofs.v
theories/SyncHealProps.v
theories/SyncHealSpec.v
theories/SyncModel.v
theories/SyncPatProps.v
theories/SyncProofs.v
theories/SyncProps.v
theories/SyncReModel.v
theories/SyncReProofs.v
theories/SyncReProps.v
theories/SyncReSpec.v
theories/SyncSpec.v
theories/SyncTimerProps.v
theories/TrauFields.v
theories/TrauFigProps.v
theories/TrauFigures.v
theories/TrauLongProps.v
theories/TrauModel.v
theories/TrauProofs.v
theories/TrauProps.v
theories/TrauSpec.v
theories/UnixModel.v
theories/UnixProps.v
theories/VtyModel.v
theories/VtyProofs.v
theories/VtyProps.v
theories/VtySpec.v
theories/VtyTsProps.v
