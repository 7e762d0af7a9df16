-Q theories Verif
theories/Base.v
theories/FileModel.v
theories/FileSpec.v
theories/FileProofs.v
theories/FsModel.v
theories/FsSpec.v
theories/FsProofs.v
theories/FsRefine.v
theories/FsView.v
theories/FsLemmas.v
theories/FsLemmas2.v
theories/FsProps.v
theories/CnrModel.v
theories/CnrSpec.v
theories/CnrProofs.v
theories/CnrProps.v
theories/MemModel.v
theories/MemSpec.v
theories/MemProofs.v
theories/MemProps.v
theories/DetModel.v
theories/DetProofs.v
theories/DetProps.v
theories/SysModel.v
theories/SysSpec.v
theories/SysProps.v
theories/TlbModel.v
theories/TlbProps.v
theories/TlbProtoProps.v
theories/NodeModel.v
theories/NodeProps.v
theories/VsModel.v
theories/VsSpec.v
theories/VsProofs.v
theories/VsProps.v
theories/RwModel.v
theories/RwProps.v
theories/QueueModel.v
theories/QueueSpec.v
theories/QueueProps.v
theories/RpcModel.v
theories/RpcSpec.v
theories/RpcProofs.v
theories/RpcProps.v
theories/CntLib.v
theories/MtxModel.v
theories/MtxProofs.v
theories/MtxProps.v
theories/UrwModel.v
theories/UrwProofs.v
theories/UrwProps.v
theories/SemModel.v
theories/SemProofs.v
theories/SemProps.v
theories/SchModel.v
theories/SchSpec.v
theories/SchProofs.v
theories/SchProps.v
theories/PgModel.v
theories/PgSpec.v
theories/PgProofs.v
theories/PgProps.v
theories/DcmModel.v
theories/DcmSpec.v
theories/DcmProofs.v
theories/DcmProps.v
theories/ThmModel.v
theories/ThmSpec.v
theories/ThmProofs.v
theories/ThmProps.v
theories/PrcModel.v
theories/PrcSpec.v
theories/PrcProofs.v
theories/PrcProps.v
theories/ScSpec.v
theories/ScProps.v
theories/ElfModel.v
theories/ElfSpec.v
theories/ElfProofs.v
theories/ElfProps.v
theories/IsoModel.v
theories/IsoSpec.v
theories/IsoProofs.v
theories/IsoProps.v
theories/BootModel.v
theories/BootSpec.v
theories/BootProofs.v
theories/BootProps.v
theories/HeapModel.v
theories/HeapSpec.v
theories/HeapProofs.v
theories/HeapProofs2.v
theories/HeapProofs3.v
theories/HeapProofs4.v
theories/HeapProps.v
theories/HeapExamples.v
theories/RkModel.v
theories/RkSpec.v
theories/RkProofs.v
theories/RkSim.v
theories/RkProps.v
theories/RmModel.v
theories/RmSpec.v
theories/RmProofs.v
theories/RmProps.v
theories/MasModel.v
theories/MasSpec.v
theories/MasProofs.v
theories/MasProps.v
theories/UmModel.v
theories/UmSpec.v
theories/UmProofs.v
theories/UmProofs2.v
theories/UmProps.v
theories/TcpModel.v
theories/TcpSpec.v
theories/TcpProofs.v
theories/TcpProps.v
theories/TrModel.v
theories/TrSpec.v
theories/TrProofs.v
theories/TrProps.v
theories/NtxModel.v
theories/NtxSpec.v
theories/NtxProofs.v
theories/NtxProps.v
theories/NrxModel.v
theories/NrxSpec.v
theories/NrxProofs.v
theories/NrxProps.v
theories/BlvModel.v
theories/BlvSpec.v
theories/BlvProofs.v
theories/BlvProps.v
theories/BliModel.v
theories/BliSpec.v
theories/BliProofs.v
theories/BliProps.v
theories/BlpModel.v
theories/BlpSpec.v
theories/BlpProofs.v
theories/BlpProps.v
theories/ShmModel.v
theories/ShmSpec.v
theories/ShmProofs.v
theories/ShmProps.v
theories/RtlModel.v
theories/RtlSpec.v
theories/RtlProofs.v
theories/RtlProps.v
theories/LwpModel.v
theories/LwpSpec.v
theories/LwpProofs.v
theories/LwpProps.v
theories/CmdModel.v
theories/CmdSpec.v
theories/CmdProofs.v
theories/CmdProps.v
theories/InfModel.v
theories/InfSpec.v
theories/InfProofs.v
theories/InfProps.v
theories/CvModel.v
theories/CvSpec.v
theories/CvProofs.v
theories/CvProps.v
theories/GdbModel.v
theories/GdbSpec.v
theories/GdbProofs.v
theories/GdbProps.v
theories/TlsModel.v
theories/TlsSpec.v
theories/TlsProofs.v
theories/TlsProps.v
theories/IrqModel.v
theories/IrqSpec.v
theories/IrqProofs.v
theories/IrqProps.v
theories/DmaModel.v
theories/DmaSpec.v
theories/DmaProofs.v
theories/DmaProps.v
theories/CbModel.v
theories/CbSpec.v
theories/CbProofs.v
theories/CbProps.v
theories/PciModel.v
theories/PciSpec.v
theories/PciProofs.v
theories/PciProps.v
theories/VcpModel.v
theories/VcpSpec.v
theories/VcpProofs.v
theories/VcpProps.v
theories/RsuModel.v
theories/RsuSpec.v
theories/RsuProofs.v
theories/RsuProps.v
theories/RfsModel.v
theories/RfsSpec.v
theories/RfsProofs.v
theories/RfsProps.v
theories/ConModel.v
theories/ConSpec.v
theories/ConProofs.v
theories/ConProps.v
theories/BmModel.v
theories/BmSpec.v
theories/BmProofs.v
theories/BmProps.v
theories/EnvModel.v
theories/EnvSpec.v
theories/EnvProofs.v
theories/EnvProps.v
theories/AcpModel.v
theories/AcpSpec.v
theories/AcpProofs.v
theories/AcpProps.v
theories/RefModel.v
theories/RefSpec.v
theories/RefProofs.v
theories/RefProps.v
theories/VmxModel.v
theories/VmxSpec.v
theories/VmxProofs.v
theories/VmxProps.v
