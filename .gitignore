*.lia.cache
.lia.cache
