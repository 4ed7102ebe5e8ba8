-Q theories Verif
theories/Base.v
theories/Tag.v
theories/TagProofs.v
theories/Codec.v
theories/CodecProofs.v
theories/PropertiesCodec.v
theories/Gear.v
theories/GearBase.v
theories/GearSearch.v
theories/GearProofs.v
theories/GearMerge.v
theories/GearAlloc.v
theories/GearRealloc.v
theories/GearResize.v
theories/GearAsis.v
theories/Tuple.v
theories/TupleProofs.v
theories/TupleSteps.v
theories/TupleView.v
theories/TupleOps.v
theories/TupleMore.v
theories/TupleHist.v
theories/TupleFacts.v
theories/PropertiesTuple.v
theories/Erthink.v
theories/ErthinkProofs.v
theories/PropertiesErthink.v
theories/Arena.v
theories/ArenaProofs.v
theories/PropertiesArena.v
theories/Hippeus.v
theories/HippeusProofs.v
theories/PropertiesHippeus.v
theories/Values.v
theories/ValuesProofs.v
theories/PropertiesValues.v
theories/Scan.v
theories/ScanProofs.v
theories/PropertiesScan.v
theories/Audit.v
theories/AuditProofs.v
theories/PropertiesAudit.v
theories/Image.v
theories/ImageProofs.v
theories/PropertiesImage.v
theories/GearOpt.v
theories/GearOptProofs.v
theories/GearSortProofs.v
theories/PropertiesOpt.v
theories/TupleQuiet.v
theories/PropertiesQuiet.v
theories/Numeric.v
theories/NumericProofs.v
theories/PropertiesNumeric.v
theories/Schema.v
theories/SchemaProofs.v
theories/PropertiesSchema.v
theories/Growth.v
theories/GrowthProofs.v
theories/PropertiesGrowth.v
theories/Iterators.v
theories/IteratorsProofs.v
theories/PropertiesIterators.v
theories/Legacy.v
theories/LegacyProofs.v
theories/PropertiesLegacy.v
theories/D2a.v
theories/D2aProofs.v
theories/D2aRound.v
theories/PropertiesD2a.v
theories/Managed.v
theories/ManagedProofs.v
theories/PropertiesManaged.v
theories/Text.v
theories/TextProofs.v
theories/PropertiesText.v
theories/PolicyProofs.v
theories/PropertiesPolicy.v
theories/AcceptProofs.v
theories/PropertiesAccept.v
theories/Facade.v
theories/PropertiesFacade.v
theories/Traits.v
theories/PropertiesTraits.v
theories/Typed.v
theories/TypedProofs.v
theories/PropertiesTyped.v
theories/MixProofs.v
theories/Guarded.v
theories/GuardedProofs.v
theories/PropertiesGuarded.v
theories/Held.v
theories/HeldProofs.v
theories/PropertiesHeld.v
theories/Keywords.v
theories/PropertiesKeywords.v
theories/Named.v
theories/PropertiesNamed.v
theories/TupleExact.v
theories/PropertiesExact.v
theories/Scales.v
theories/PropertiesScales.v
theories/Walk.v
theories/WalkProofs.v
theories/PropertiesWalk.v
theories/WanderProofs.v
theories/PropertiesWander.v
theories/PropertiesAuditAny.v
theories/PropertiesStaleAny.v
theories/Tokens.v
theories/PropertiesTokens.v
theories/Buffers.v
theories/PropertiesBuffers.v
theories/Alias.v
theories/AliasProofs.v
theories/PropertiesAlias.v
theories/Removal.v
theories/RemovalProofs.v
theories/PropertiesRemoval.v
theories/Views.v
theories/PropertiesViews.v
theories/Cpu.v
theories/PropertiesCpu.v
theories/Stale.v
theories/StaleProofs.v
theories/StaleTwin.v
theories/PropertiesStale.v
theories/References.v
theories/ReferencesProofs.v
theories/PropertiesReferences.v
theories/Aligned.v
theories/PropertiesAligned.v
theories/Native.v
theories/PropertiesNative.v
theories/Wider.v
theories/PropertiesWider.v
theories/Assign.v
theories/PropertiesAssign.v
theories/RoundProofs.v
theories/PropertiesRound.v
theories/PropertiesWiderHoles.v
theories/Seconds.v
theories/PropertiesSeconds.v
theories/SchemaMore.v
theories/PropertiesSchemaMore.v
theories/Kinds.v
theories/PropertiesKinds.v
