.nia.cache
