-Q theories Verif
theories/RbModel.v
theories/RbZip.v
theories/RbRot.v
theories/RbInsert.v
theories/RbErase.v
theories/RbRemove.v
theories/RbSpec.v
theories/RbHist.v
theories/RbNav.v
theories/RbIntCmp.v
theories/RbProps.v
theories/KbufModel.v
theories/KbufSpec.v
theories/KbufProof.v
theories/KbufRun.v
theories/KsProof.v
theories/KbufProps.v
theories/Lts.v
theories/FmutexModel.v
theories/FmutexProof.v
theories/FmutexProps.v
theories/FrwlockModel.v
theories/FrwlockProof.v
theories/FrwlockProps.v
theories/FcondModel.v
theories/FcondProof.v
theories/FcondProps.v
theories/FchanModel.v
theories/FchanProof.v
theories/FchanProps.v
theories/FswitchModel.v
theories/FswitchProof.v
theories/FswitchProps.v
theories/FlifeModel.v
theories/FlifeProof.v
theories/FlifeProps.v
theories/TimerModel.v
theories/TimerSpec.v
theories/TimerProof.v
theories/TimerProps.v
theories/KlistModel.v
theories/KlistProof.v
theories/KlistProps.v
theories/SelListModel.v
theories/SelListProof.v
theories/SelListProps.v
theories/NoticeModel.v
theories/NoticeProof.v
theories/NoticeProps.v
theories/WorkerModel.v
theories/WorkerProof.v
theories/WorkerProps.v
theories/PoolModel.v
theories/PoolSpec.v
theories/PoolProof.v
theories/PoolProof2.v
theories/PoolProof3.v
theories/PoolProps.v
theories/IoModel.v
theories/IoProps.v
theories/SelMgrModel.v
theories/SelMgrProps.v
theories/AddrModel.v
theories/AddrProps.v
theories/SpinModel.v
theories/SpinProps.v
theories/KcondModel.v
theories/KcondProps.v
theories/ThreadModel.v
theories/ThreadProps.v
theories/DnsModel.v
theories/DnsProps.v
theories/DnsProps2.v
theories/Count.v
theories/ServerModel.v
theories/ServerProps.v
theories/FfairProps.v
theories/EpollModel.v
theories/EpollProof.v
theories/EpollProof2.v
theories/EpollProof3.v
theories/EpollProps.v
theories/SslOptModel.v
theories/SslOptProps.v
theories/SslHsModel.v
theories/SslHsProps.v
theories/FnetModel.v
theories/FnetProps.v
theories/UringModel.v
theories/UringSpec.v
theories/UringProof.v
theories/UringProof2.v
theories/UringProof3.v
theories/UringProof4.v
theories/UringProof5.v
theories/UringPipe.v
theories/UringProps.v
theories/FcallModel.v
theories/FcallProps.v
theories/SslBioModel.v
theories/SslBioProof.v
theories/SslBioProps.v
theories/SslBioThms.v
theories/RbReplace.v
theories/KqModel.v
theories/KqProof.v
theories/KqProof2.v
theories/KqProps.v
theories/AcceptModel.v
theories/AcceptProps.v
theories/KqNoticeModel.v
theories/KqNoticeProps.v
theories/AioModel.v
theories/AioSpec.v
theories/AioProof.v
theories/AioProof2.v
theories/AioProps.v
theories/DbgAllocModel.v
theories/DbgAllocSpec.v
theories/DbgAllocHeap.v
theories/DbgAllocProof.v
theories/DbgAllocProof2.v
theories/DbgAllocProof3.v
theories/DbgAllocEff.v
theories/DbgAllocProof4.v
theories/DbgAllocProof5.v
theories/DbgAllocProps.v
theories/IocpModel.v
theories/IocpSpec.v
theories/IocpProof.v
theories/IocpProof2.v
theories/IocpProof3.v
theories/IocpProof4.v
theories/IocpProof5.v
theories/IocpProof6.v
theories/IocpProof7.v
theories/IocpProof8.v
theories/IocpProof9.v
theories/IocpProof10.v
theories/IocpProof11.v
theories/IocpProps.v
theories/KstrModel.v
theories/KstrProps.v
theories/SmgrModel.v
theories/SmgrProps.v
theories/FileModel.v
theories/FileProps.v
theories/SockModel.v
theories/SockProps.v
theories/ConnModel.v
theories/ConnProps.v
theories/WfModel.v
theories/WfSpec.v
theories/WfProof.v
theories/WfProof2.v
theories/WfProof3.v
theories/WfProof4.v
theories/WfProof5.v
theories/WfProps.v
theories/WfLive.v
theories/WfMore.v
theories/CertModel.v
theories/CertSpec.v
theories/CertProof.v
theories/CertProof2.v
theories/CertProof3.v
theories/CertProof4.v
theories/CertProps.v
theories/CertMore.v
theories/SniModel.v
theories/SniSpec.v
theories/SniProps.v
theories/FctxModel.v
theories/FctxProofs.v
theories/FctxProps.v
theories/UdpModel.v
theories/UdpProps.v
theories/KaioModel.v
theories/KaioProps.v
theories/Fa64Model.v
theories/Fa64Proofs.v
theories/Fa64Props.v
theories/UlpModel.v
theories/UlpProps.v
theories/WsetModel.v
theories/WsetProps.v
theories/SrvModel.v
theories/SrvProps.v
theories/RbPackModel.v
theories/RbPackProps.v
theories/RbStrModel.v
theories/RbStrProps.v
theories/AtomModel.v
theories/AtomProps.v
theories/TickModel.v
theories/TickProps.v
theories/DbgWinModel.v
theories/DbgWinProps.v
theories/RbAugModel.v
theories/RbAugIns.v
theories/RbAugPath.v
theories/RbAugErase.v
theories/RbAugRemove.v
theories/RbAugDel.v
theories/RbAugProps.v
theories/KintModel.v
theories/KintProps.v
